(** C127: storages of accounts and all else are apart in the one database. *)
From Coq Require Import String Ascii.
From Verif Require Import Base Header_Model Args_Model Trie_Model StateContent_Model ExecDb_Model KeySpace_Model KeySpace_Spec.

(** Where an area keeps the value of a key *)
Definition place (ar : area) (k : bytes) : bytes := match ar with Storage a => a ++ k | State => k | Place => position_key end.
Definition fits (ar : area) (k : bytes) : Prop := match ar with Storage a => length a = 32%nat /\ length k = 32%nat | State => length k = 32%nat | Place => True end.
Lemma app_inj (a b k l : bytes) : length a = length b -> a ++ k = b ++ l -> a = b /\ k = l.
Proof. revert b. induction a as [|x a IH]; intros [|y b] L E; cbn in *; try discriminate; [auto|]. injection E as -> E. injection L as L. destruct (IH b L E). split; congruence. Qed.
Lemma put_at d k v x : put d k v x = if beqb x k then Some v else d x.
Proof. reflexivity. Qed.
Section S.
Variable keccak : bytes -> bytes.
Notation do_write := (do_write keccak). Notation do_writes := (do_writes keccak).
(** Not the key that is never stored *)
Definition open (ar : area) (k : bytes) : Prop := match ar with Storage _ => k <> keccak [] | _ => True end.
Lemma write_step db w db' ar k : write_typed w -> fits ar k -> open ar k -> do_write db w = Ok db' ->
  (exists r, sets w ar k r /\ db' (place ar k) = r) \/ ((forall r, ~ sets w ar k r) /\ db' (place ar k) = db (place ar k)).
Proof.
  intros T F O E.
  assert (D : forall x y z, beqb x y = false -> put db y z x = db x /\ delete db y x = db x) by (intros x y z B; unfold put, delete; rewrite B; auto).
  assert (St : forall a k0, length a = 32%nat -> length k0 = 32%nat -> (ar = Storage a /\ k = k0) \/ (beqb (place ar k) (a ++ k0) = false /\ ~ (ar = Storage a /\ k = k0))).
  { intros a k0 L1 L2. destruct (beqb (place ar k) (a ++ k0)) eqn:B; [apply beqb_spec in B|right; split; [reflexivity|intros (-> & ->); cbn in B; rewrite beqb_refl in B; discriminate]].
    left. destruct ar as [a'| |]; cbn [place fits] in *.
    - destruct F as (F1 & F2). destruct (app_inj a' a k k0) as (-> & ->); [congruence|exact B|auto].
    - apply (f_equal (@length N)) in B. rewrite app_length in B. lia.
    - apply (f_equal (@length N)) in B. rewrite app_length in B. change (length position_key) with 18%nat in B. lia. }
  assert (Sh : forall k0, length k0 = 32%nat -> (ar = State /\ k = k0) \/ (beqb (place ar k) k0 = false /\ ~ (ar = State /\ k = k0))).
  { intros k0 L. destruct (beqb (place ar k) k0) eqn:B; [apply beqb_spec in B|right; split; [reflexivity|intros (-> & ->); cbn in B; rewrite beqb_refl in B; discriminate]].
    left. destruct ar as [a'| |]; cbn [place fits] in *.
    - apply (f_equal (@length N)) in B. rewrite app_length in B. lia.
    - auto.
    - apply (f_equal (@length N)) in B. change (length position_key) with 18%nat in B. lia. }
  destruct w as [a k0 v|a k0|k0 v|light k0|k0 v|k0|v]; cbn [KeySpace_Model.do_write write_typed] in E, T.
  - unfold account_insert in E. destruct (blen k0 =? 32) eqn:L; [|discriminate]. apply N.eqb_eq in L. unfold blen in L. cbn [negb] in E.
    destruct (St a k0 T ltac:(lia)) as [(-> & ->)|(B & Ne)].
    + left. exists (Some v). split; [constructor|]. destruct (beqb k0 (keccak [])) eqn:Q; [apply beqb_spec in Q; elim O; exact Q|]. injection E as <-. cbn [place]. unfold put, get_db_key. rewrite beqb_refl. reflexivity.
    + right. split; [intros r X; inversion X; subst; apply Ne; auto|]. destruct (beqb k0 (keccak [])); injection E as <-; [reflexivity|]. now apply D.
  - unfold account_remove in E. destruct (blen k0 =? 32) eqn:L; [|discriminate]. apply N.eqb_eq in L. unfold blen in L. cbn [negb] in E.
    destruct (St a k0 T ltac:(lia)) as [(-> & ->)|(B & Ne)].
    + left. exists None. split; [constructor|]. destruct (beqb k0 (keccak [])) eqn:Q; [apply beqb_spec in Q; elim O; exact Q|]. injection E as <-. cbn [place]. unfold delete, get_db_key. rewrite beqb_refl. reflexivity.
    + right. split; [intros r X; inversion X; subst; apply Ne; auto|]. destruct (beqb k0 (keccak [])); injection E as <-; [reflexivity|]. apply (D _ _ [] B).
  - injection E as <-. destruct (Sh k0 T) as [(-> & ->)|(B & Ne)].
    + left. exists (Some v). split; [constructor|]. cbn [place]. unfold trie_insert, put. rewrite beqb_refl. reflexivity.
    + right. split; [intros r X; inversion X; subst; apply Ne; auto|]. unfold trie_insert. now apply D.
  - injection E as <-. destruct light; cbn [trie_remove]; [|right; split; [intros r X; inversion X|reflexivity]]. destruct (Sh k0 T) as [(-> & ->)|(B & Ne)].
    + left. exists None. split; [constructor|]. cbn [place]. unfold delete. rewrite beqb_refl. reflexivity.
    + right. split; [intros r X; inversion X; subst; apply Ne; auto|]. apply (D _ _ [] B).
  - injection E as <-. destruct (Sh k0 T) as [(-> & ->)|(B & Ne)].
    + left. exists (Some v). split; [constructor|]. cbn [place]. unfold put. rewrite beqb_refl. reflexivity.
    + right. split; [intros r X; inversion X; subst; apply Ne; auto|]. now apply D.
  - injection E as <-. destruct (Sh k0 T) as [(-> & ->)|(B & Ne)].
    + left. exists None. split; [constructor|]. cbn [place]. unfold delete. rewrite beqb_refl. reflexivity.
    + right. split; [intros r X; inversion X; subst; apply Ne; auto|]. apply (D _ _ [] B).
  - injection E as <-. destruct ar as [a'| |].
    + right. split; [intros r X; inversion X|]. apply D. destruct (beqb _ _) eqn:B; [|reflexivity]. apply beqb_spec in B. cbn [place fits] in B, F. apply (f_equal (@length N)) in B. rewrite app_length in B. change (length position_key) with 18%nat in B. lia.
    + right. split; [intros r X; inversion X|]. apply D. destruct (beqb _ _) eqn:B; [|reflexivity]. apply beqb_spec in B. cbn [place fits] in B, F. apply (f_equal (@length N)) in B. change (length position_key) with 18%nat in B. lia.
    + left. exists (Some v). split; [constructor|]. cbn [place]. unfold put. rewrite beqb_refl. reflexivity.
Qed.
Lemma writes_last ar k : fits ar k -> open ar k -> forall ws db db', Forall write_typed ws -> do_writes db ws = Ok db' -> last_set ws (db (place ar k)) ar k (db' (place ar k)).
Proof.
  intros F O. induction ws as [|w ws IH]; intros db db' T E; cbn in E; [injection E as <-; right; split; [reflexivity|intros w r []]|].
  inversion T as [|? ? T1 T2]; subst. destruct (do_write db w) as [db1| |] eqn:W; [|discriminate|discriminate]. cbn [obind] in E.
  destruct (IH db1 db' T2 E) as [(ws1 & w1 & ws2 & -> & S & A)|(Q & A)].
  - left. exists (w :: ws1), w1, ws2. auto.
  - rewrite Q. destruct (write_step db w db1 ar k T1 F O W) as [(r & S & R)|(N1 & R)].
    + left. exists [], w, ws. rewrite R. split; [reflexivity|]. split; [exact S|exact A].
    + right. split; [exact R|]. intros w' r' [<-|I]; [apply N1|now apply A].
Qed.
(** A storage trie reads what was last written to the storage of this account under this key: nothing that is written for other accounts, for the state or for the position changes it *)
Theorem C127_storage : forall db ws db' address key, Forall write_typed ws -> do_writes db ws = Ok db' ->
  length address = 32%nat -> length key = 32%nat -> key <> keccak [] ->
  exists before r, account_get keccak db address key = Ok before /\ account_get keccak db' address key = Ok r /\ last_set ws before (Storage address) key r.
Proof.
  intros db ws db' a k T E La Lk Ne. exists (db (a ++ k)), (db' (a ++ k)).
  assert (G : forall d, account_get keccak d a k = Ok (d (a ++ k))).
  { intros d. unfold account_get, get_db_key, blen. rewrite Lk. cbn [N.of_nat negb]. change (N.of_nat 32 =? 32) with true. cbn [negb].
    destruct (beqb k (keccak [])) eqn:B; [apply beqb_spec in B; contradiction|reflexivity]. }
  split; [apply G|]. split; [apply G|]. apply (writes_last (Storage a) k); [split; assumption|exact Ne|exact T|exact E].
Qed.
(** The state trie, accounts, codes and block hashes: the last of their writes; no storage changes it *)
Theorem C127_state : forall db ws db' key, Forall write_typed ws -> do_writes db ws = Ok db' -> length key = 32%nat ->
  last_set ws (trie_get db key) State key (trie_get db' key).
Proof. intros db ws db' k T E L. apply (writes_last State k); [exact L|exact I|exact T|exact E]. Qed.
(** The position: only it *)
Theorem C127_position : forall db ws db', Forall write_typed ws -> do_writes db ws = Ok db' -> last_set ws (db position_key) Place [] (db' position_key).
Proof. intros db ws db' T E. apply (writes_last Place []); [exact I|exact I|exact T|exact E]. Qed.
(** Nodes and codes are kept under their hash.  If that is so of all that is written under a key, the value found later has this hash, as long as it is not removed *)
Theorem C127_by_hash : forall db ws db' key v, Forall write_typed ws -> do_writes db ws = Ok db' ->
  (In (StateNode key v) ws \/ In (Record key v) ws) -> (forall v' w, In w ws -> sets w State key (Some v') -> keccak v' = key) -> (forall w, In w ws -> ~ sets w State key None) ->
  exists v', trie_get db' key = Some v' /\ keccak v' = key /\ (keccak v = keccak v' /\ v <> v' \/ v' = v).
Proof.
  intros db ws db' k v T E W H D.
  assert (exists w, In w ws /\ sets w State k (Some v)) as (w0 & I0 & S0) by (destruct W as [W|W]; eexists; (split; [exact W|constructor])).
  assert (L : length k = 32%nat). { rewrite Forall_forall in T. destruct W as [W|W]; apply (T _ W). }
  destruct (C127_state db ws db' k T E L) as [(ws1 & w & ws2 & -> & S & A)|(_ & A)]; [|elim (A w0 (Some v) I0 S0)].
  destruct (trie_get db' k) as [v'|] eqn:R; [|elim (D w); [apply in_elt|exact S]]. exists v'. split; [reflexivity|].
  assert (Hv' : keccak v' = k) by (apply (H v' w); [apply in_elt|exact S]). split; [exact Hv'|].
  destruct (beqb v v') eqn:B; [right; symmetry; apply beqb_spec; exact B|]. left. split; [rewrite (H v w0 I0 S0); symmetry; exact Hv'|].
  intros ->. rewrite beqb_refl in B. discriminate.
Qed.
(** A key that has not 32 bytes stops the program, without a write; no other key does *)
Theorem C127_panic : forall db address key value,
  (account_get keccak db address key = Panic <-> length key <> 32%nat) /\ (account_insert keccak db address key value = Panic <-> length key <> 32%nat) /\
  (account_remove keccak db address key = Panic <-> length key <> 32%nat) /\
  account_get keccak db address key <> Err /\ account_insert keccak db address key value <> Err /\ account_remove keccak db address key <> Err.
Proof.
  intros db a k v. unfold account_get, account_insert, account_remove, blen.
  destruct (N.of_nat (length k) =? 32) eqn:L; cbn [negb].
  - apply N.eqb_eq in L. assert (length k = 32%nat) by lia. destruct (beqb k (keccak [])); repeat split; intros; congruence.
  - apply N.eqb_neq in L. assert (length k <> 32%nat) by lia. repeat split; intros; congruence.
Qed.
(** Under the hash of nothing there is always the empty node, whatever is written *)
Theorem C127_nothing : forall db ws db' address, length (keccak []) = 32%nat -> do_writes db ws = Ok db' ->
  account_get keccak db' address (keccak []) = Ok (Some [128]).
Proof. intros db ws db' a L _. unfold account_get, blen. rewrite L. change (N.of_nat 32 =? 32) with true. cbn [negb]. rewrite beqb_refl. reflexivity. Qed.
(** Not so: that the empty node is always found under its hash, which is the root of an empty storage.  It is under the hash of nothing only *)
Theorem C127_empty_refuted : forall address, length (keccak [128]) = 32%nat -> keccak [128] <> keccak [] ->
  account_get keccak no_kv address (keccak [128]) = Ok None.
Proof.
  intros a L Ne. unfold account_get, blen. rewrite L. change (N.of_nat 32 =? 32) with true. cbn [negb].
  destruct (beqb (keccak [128]) (keccak [])) eqn:B; [apply beqb_spec in B; contradiction|reflexivity].
Qed.
End S.
Print Assumptions C127_storage.
Print Assumptions C127_state.
Print Assumptions C127_position.
Print Assumptions C127_by_hash.
Print Assumptions C127_panic.
Print Assumptions C127_nothing.
Print Assumptions C127_empty_refuted.

(** Two accounts and the state write under the same key; the position is written as well *)
Definition toy_hash (b : bytes) : bytes := repeat (fold_left N.add b (blen b) mod 256) 32.
Definition toy_writes : list write :=
  let a := repeat 1 32 in let b := repeat 2 32 in let k := toy_hash [5] in
  [Record (toy_hash []) []; Record (repeat 0 32) []; StorageNode a k [5]; StorageNode b k [6]; StateNode k [5]; Position [7]; StorageGone b k; StateGone false k].
Example C127_case : exists db, do_writes toy_hash no_kv toy_writes = Ok db /\ Forall write_typed toy_writes /\ toy_hash [5] <> toy_hash [] /\
  account_get toy_hash db (repeat 1 32) (toy_hash [5]) = Ok (Some [5]) /\ account_get toy_hash db (repeat 2 32) (toy_hash [5]) = Ok None /\
  trie_get db (toy_hash [5]) = Some [5] /\ db position_key = Some [7] /\
  (forall v' w, In w toy_writes -> sets w State (toy_hash [5]) (Some v') -> toy_hash v' = toy_hash [5]) /\ (forall w, In w toy_writes -> ~ sets w State (toy_hash [5]) None) /\
  toy_hash [128] <> toy_hash [] /\ length (toy_hash [128]) = 32%nat.
Proof.
  eexists. split; [reflexivity|]. split; [repeat constructor|]. split; [vm_compute; discriminate|]. split; [vm_compute; reflexivity|]. split; [vm_compute; reflexivity|].
  split; [vm_compute; reflexivity|]. split; [vm_compute; reflexivity|]. split; [|split; [|split; [vm_compute; discriminate|reflexivity]]].
  - intros v' w I S. cbn in I. repeat (destruct I as [<-|I]; [inversion S; subst; try reflexivity; try discriminate|]); destruct I.
  - intros w I S. cbn in I. repeat (destruct I as [<-|I]; [inversion S|]); destruct I.
Qed.
