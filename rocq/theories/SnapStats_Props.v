(** The check of snapshots. *)
From Verif Require Import Base Trie_Model StateContent_Model EraFiles_Model ExecDb_Model ExecSnap_Model ExecDb_Props ExecSnap_Props SnapStats_Model SnapStats_Spec.

Lemma last_cons {A} (x d : A) l : List.last (x :: l) d = List.last l x.
Proof. revert x d. induction l as [|y l IH]; intros x d; [reflexivity|]. change (List.last (y :: l) d = List.last (y :: l) x). now rewrite !IH. Qed.
Lemma growing_app a b : forall last, growing last (a ++ b) <-> growing last a /\ growing (List.last a last) b.
Proof. induction a as [|x a IH]; intros last; cbn [app growing]; [cbn; tauto|]. rewrite IH, last_cons. tauto. Qed.
Lemma scan_slots_spec l : forall last o, scan_slots last l = Ok o <-> growing last (map number_of l) /\ o = List.last (map number_of l) last.
Proof.
  induction l as [|x l IH]; intros last o; cbn [scan_slots map growing].
  - cbn. split; [intros [= <-]; auto|intros [_ ->]; reflexivity].
  - fold (number_of x). rewrite last_cons. destruct (N.ltb_spec last (number_of x)) as [L|L].
    + rewrite IH. tauto.
    + split; [discriminate|]. intros [[H _] _]. lia.
Qed.
Lemma scan_slots_no_err l : forall last, scan_slots last l <> Err.
Proof. induction l as [|x l IH]; intros last; cbn; [discriminate|]. destruct (last <? be_num (fst x)); [apply IH|discriminate]. Qed.

Section Check.
Context (keccak : bytes -> bytes).
Definition add_parts (s : stats) (parts : list (list (bytes * N))) : stats :=
  {| account_count := account_count s; bytecode_count := bytecode_count s;
     storage_entry_count := storage_entry_count s + blen parts; storage_item_count := storage_item_count s + blen (concat parts) |}.
Lemma add_none s : add_parts s [] = s.
Proof. destruct s as [a b c d]. unfold add_parts, blen. cbn [account_count bytecode_count storage_entry_count storage_item_count concat length N.of_nat]. now rewrite !N.add_0_r. Qed.
Lemma add_more s p parts : add_parts (count_storage s (blen p)) parts = add_parts s (p :: parts).
Proof. unfold add_parts, count_storage, blen. cbn [account_count bytecode_count storage_entry_count storage_item_count length concat]. rewrite app_length. f_equal; lia. Qed.

(** Reading the storage of an account. *)
Lemma scan_parts last e : forall parts i slot s r z o, i + blen parts = ae_count e -> parts <> [] ->
  scan keccak last (Some (e, i, slot)) s (map Storage parts ++ r) z = Ok o <->
  full parts /\ growing slot (map number_of (concat parts)) /\ scan keccak last None (add_parts s parts) r z = Ok o.
Proof.
  induction parts as [|p parts IH]; intros i slot s r z o C N; [contradiction|]. clear N.
  cbn [map app scan concat]. rewrite map_app, growing_app.
  destruct parts as [|q parts].
  - assert (E : i + 1 = ae_count e) by (revert C; unfold blen; cbn [length]; lia). rewrite <- E.
    destruct (N.ltb_spec (i + 1) (i + 1)) as [X|_]; [lia|]. cbn [andb]. rewrite N.eqb_refl. cbn [map app concat growing]. rewrite <- add_more, add_none.
    split.
    + intros H. destruct (scan_slots slot p) as [k| |] eqn:K; cbn [obind] in H; try discriminate. apply scan_slots_spec in K as [K _].
      split; [intros y []|]. auto.
    + intros (_ & (G & _) & H). destruct (scan_slots slot p) as [k| |] eqn:K; cbn [obind]; [exact H| |].
      * now apply scan_slots_no_err in K.
      * rewrite (proj2 (scan_slots_spec p slot _) (conj G eq_refl)) in K. discriminate.
  - assert (E : i + 1 < ae_count e) by (revert C; unfold blen; cbn [length]; lia).
    destruct (N.ltb_spec (i + 1) (ae_count e)) as [_|X]; [|lia]. destruct (N.eqb_spec (i + 1) (ae_count e)) as [X|_]; [lia|]. cbn [andb].
    assert (F : full (p :: q :: parts) <-> blen p = 10000000 /\ full (q :: parts)).
    { unfold full. change (removelast (p :: q :: parts)) with (p :: removelast (q :: parts)). split; [intros H; split; [apply H; now left|intros y Y; apply H; now right]|intros [H1 H2] y [<-|Y]; auto]. }
    rewrite F, <- add_more. unfold MAX_STORAGE_ITEMS. destruct (N.eqb_spec (blen p) 10000000) as [Q|Q]; cbn [negb]; [|split; [discriminate|intros ((X & _) & _); contradiction]].
    split.
    + intros H. destruct (scan_slots slot p) as [k| |] eqn:K; cbn [obind] in H; try discriminate. apply scan_slots_spec in K as [K ->].
      change (Storage q :: map Storage parts ++ r) with (map (@Storage account_entry (list (bytes * N))) (q :: parts) ++ r) in H.
      apply IH in H as (H1 & H2 & H3); [auto|revert C; unfold blen; cbn [length]; lia|discriminate].
    + intros ((_ & F1) & (G1 & G2) & H). rewrite (proj2 (scan_slots_spec p slot _) (conj G1 eq_refl)). cbn [obind].
      change (Storage q :: map Storage parts ++ r) with (map (@Storage account_entry (list (bytes * N))) (q :: parts) ++ r).
      apply IH; [revert C; unfold blen; cbn [length]; lia|discriminate|]. auto.
Qed.
(** What is left of a file in the middle of the storage of an account starts with the parts that are due. *)
Lemma scan_due last e : forall l i slot s z o, i < ae_count e -> scan keccak last (Some (e, i, slot)) s l z = Ok o ->
  exists parts r, l = map Storage parts ++ r /\ i + blen parts = ae_count e.
Proof.
  induction l as [|[a|x] l IH]; intros i slot s z o L H; cbn [scan] in H.
  - destruct z; discriminate.
  - discriminate.
  - destruct ((i + 1 <? ae_count e) && negb (blen x =? MAX_STORAGE_ITEMS)); [discriminate|].
    destruct (scan_slots slot x) as [k| |]; cbn [obind] in H; try discriminate.
    destruct (N.eqb_spec (i + 1) (ae_count e)) as [E|E].
    + exists [x], l. split; [reflexivity|]. unfold blen. cbn [length]. lia.
    + apply IH in H as (parts & r & -> & P); [|lia]. exists (x :: parts), r. split; [reflexivity|]. revert P. unfold blen. cbn [length]. lia.
Qed.
Definition add_group (s : stats) (g : group) : stats := add_parts (count_account s (fst g)) (snd g).
Lemma scan_files : forall gs last s r z o,
  (forall g, In g gs -> good_group keccak g) -> growing last (map (fun g : group => be_num (ae_hash (fst g))) gs) ->
  scan keccak last None s (concat (map written gs) ++ r) z = Ok o <->
  scan keccak (List.last (map (fun g : group => be_num (ae_hash (fst g))) gs) last) None (fold_left add_group gs s) r z = Ok o.
Proof.
  induction gs as [|[e parts] gs IH]; intros last s r z o G W; [reflexivity|].
  cbn [map concat fold_left]. rewrite last_cons. cbn [map growing] in W. destruct W as [W1 W2].
  destruct (G _ (or_introl eq_refl)) as (C & Ct & F & S). cbn [fst snd] in *. unfold written at 1. cbn [fst snd app].
  rewrite <- app_assoc. cbn [scan]. destruct (N.ltb_spec last (be_num (ae_hash e))) as [_|X]; [|lia].
  rewrite C, beqb_refl. rewrite <- IH; [|intros g I; apply G; now right|exact W2]. unfold add_group at 1. cbn [fst snd].
  destruct parts as [|p parts].
  - cbn in Ct. rewrite <- Ct. cbn [N.eqb map app]. rewrite add_none. reflexivity.
  - destruct (N.eqb_spec (ae_count e) 0) as [Z|Z]; [rewrite Z in Ct; discriminate Ct|].
    rewrite scan_parts; [tauto|rewrite <- Ct; lia|discriminate].
Qed.
Lemma scan_sound : forall n l last s z o, (length l <= n)%nat -> scan keccak last None s l z = Ok o ->
  z = Ok tt /\ exists gs, l = concat (map written gs) /\ (forall g, In g gs -> good_group keccak g)
    /\ growing last (map (fun g : group => be_num (ae_hash (fst g))) gs) /\ o = fold_left add_group gs s.
Proof.
  induction n as [|n IH]; intros l last s z o L H.
  - destruct l; [|cbn in L; lia]. cbn [scan] in H. destruct z as [[]| |]; cbn in H; try discriminate. injection H as <-.
    split; [reflexivity|]. exists []. split; [reflexivity|]. split; [intros g []|]. split; [exact Logic.I|reflexivity].
  - destruct l as [|[e|x] l]; cbn [scan] in H; [| |discriminate].
    + destruct z as [[]| |]; cbn in H; try discriminate. injection H as <-. split; [reflexivity|]. exists []. split; [reflexivity|]. split; [intros g []|]. split; [exact Logic.I|reflexivity].
    + destruct (N.ltb_spec last (be_num (ae_hash e))) as [W|W]; [|discriminate].
      destruct (beqb (keccak (ae_code e)) (code_hash (ae_state e))) eqn:C; [|discriminate]. apply beqb_spec in C.
      destruct (N.eqb_spec (ae_count e) 0) as [Z|Z].
      * apply IH in H as (-> & gs & -> & G & R & ->); [|cbn in L; lia]. split; [reflexivity|]. exists ((e, []) :: gs). split; [reflexivity|].
        split; [|split; [split; auto|]].
        -- intros g [<-|I]; [|auto]. split; [now symmetry|]. split; [now symmetry|]. split; [intros p []|exact Logic.I].
        -- cbn [fold_left]. replace (add_group s (e, [])) with (count_account s e); [reflexivity|]. unfold add_group. cbn [fst snd]. now rewrite add_none.
      * assert (P0 : 0 < ae_count e) by lia. destruct (scan_due _ _ _ _ _ _ _ _ P0 H) as (parts & r & -> & P).
        assert (NE : parts <> []) by (intros ->; unfold blen in P; cbn [length] in P; lia).
        apply scan_parts in H as (F & S & H); [|lia|exact NE].
        assert (L2 : (length r <= n)%nat) by (cbn [length] in L; rewrite app_length in L; lia).
        apply IH in H as (-> & gs & -> & G & R & ->); [|exact L2]. split; [reflexivity|].
        exists ((e, parts) :: gs). split; [reflexivity|]. split; [|split; [split; auto|reflexivity]].
        intros g [<-|I]; [|auto]. split; [now symmetry|]. split; [cbn [fst snd]; lia|]. split; [exact F|exact S].
Qed.
End Check.
Lemma stats_eq a b : account_count a = account_count b -> bytecode_count a = bytecode_count b -> storage_entry_count a = storage_entry_count b ->
  storage_item_count a = storage_item_count b -> a = b.
Proof. destruct a as [a1 a2 a3 a4], b as [b1 b2 b3 b4]; cbn. congruence. Qed.
Lemma numbers_cons g gs s : 
  account_count (add_group s g) + account_count (numbers gs) = account_count s + account_count (numbers (g :: gs))
  /\ bytecode_count (add_group s g) + bytecode_count (numbers gs) = bytecode_count s + bytecode_count (numbers (g :: gs))
  /\ storage_entry_count (add_group s g) + storage_entry_count (numbers gs) = storage_entry_count s + storage_entry_count (numbers (g :: gs))
  /\ storage_item_count (add_group s g) + storage_item_count (numbers gs) = storage_item_count s + storage_item_count (numbers (g :: gs)).
Proof.
  unfold add_group, add_parts, count_account, numbers, blen. cbn [account_count bytecode_count storage_entry_count storage_item_count map filter concat].
  rewrite concat_app, !app_length. destruct (ae_code (fst g)); cbn [length]; repeat split; lia.
Qed.
Lemma fold_numbers gs : forall s, 
  account_count (fold_left add_group gs s) = account_count s + account_count (numbers gs)
  /\ bytecode_count (fold_left add_group gs s) = bytecode_count s + bytecode_count (numbers gs)
  /\ storage_entry_count (fold_left add_group gs s) = storage_entry_count s + storage_entry_count (numbers gs)
  /\ storage_item_count (fold_left add_group gs s) = storage_item_count s + storage_item_count (numbers gs).
Proof.
  induction gs as [|g gs IH]; intros s; [repeat split; symmetry; apply N.add_0_r|]. cbn [fold_left].
  destruct (IH (add_group s g)) as (A & B & C & D), (numbers_cons g gs s) as (E & F & G & H). repeat split; lia.
Qed.

(** The check passes exactly if the file was read to its end and is a list of accounts, each followed by all of its storage, with growing
    hashes of addresses, the right codes, and growing hashes of slots in parts that are full but for the last; it then prints how many accounts, codes, parts and slots
    there are. *)
Theorem C121_check : forall keccak l z s,
  check keccak l z = Ok s <-> z = Ok tt /\ exists gs, l = concat (map written gs) /\ good_file keccak gs /\ s = numbers gs.
Proof.
  intros keccak l z s. unfold check.
  assert (N : forall gs, fold_left add_group gs no_stats = numbers gs).
  { intros gs. destruct (fold_numbers gs no_stats) as (A & B & C & D). apply stats_eq; [rewrite A|rewrite B|rewrite C|rewrite D]; cbn [no_stats account_count bytecode_count storage_entry_count storage_item_count]; lia. }
  split.
  - intros H. apply (scan_sound keccak (length l)) in H as (Z & gs & E & G & W & O); [|lia]. split; [exact Z|]. exists gs. rewrite N in O.
    split; [exact E|]. split; [split; auto|exact O].
  - intros (-> & gs & -> & (W & G) & ->). rewrite <- (app_nil_r (concat (map written gs))). apply scan_files; auto. cbn. now rewrite N.
Qed.
Print Assumptions C121_check.

(** Export. *)
Lemma traverse_inv {A B} (f : A -> outcome B) : forall l r, traverse f l = Ok r -> Forall2 (fun x y => f x = Ok y) l r.
Proof.
  induction l as [|x l IH]; cbn; intros r H; [injection H as <-; constructor|].
  destruct (f x) as [y| |] eqn:F; cbn in H; try discriminate. destruct (traverse f l) as [m| |]; cbn in H; try discriminate.
  injection H as <-. constructor; auto.
Qed.
Lemma chunks_of_concat {A} (n : nat) : (0 < n)%nat -> forall fuel (l : list A), (length l <= fuel)%nat -> concat (chunks_of fuel n l) = l.
Proof.
  intros P. induction fuel as [|f IH]; intros l L.
  - destruct l; [reflexivity|cbn in L; lia].
  - destruct l as [|x l]; [reflexivity|]. cbn [chunks_of concat]. rewrite IH; [apply firstn_skipn|]. rewrite skipn_length. cbn [length] in *. lia.
Qed.
Lemma chunks_of_full {A} (n : nat) : (0 < n)%nat -> forall fuel (l : list A), (length l <= fuel)%nat ->
  forall p, In p (removelast (chunks_of fuel n l)) -> length p = n.
Proof.
  intros P. induction fuel as [|f IH]; intros l L p I.
  - destruct l; destruct I.
  - destruct l as [|x l]; [destruct I|]. remember (x :: l) as m eqn:M. rewrite M in I. cbn [chunks_of] in I. rewrite <- M in I.
    assert (S : (length (skipn n m) <= f)%nat) by (rewrite skipn_length; rewrite M in *; cbn [length] in *; lia).
    destruct (chunks_of f n (skipn n m)) as [|q c] eqn:C; [destruct I|].
    change (removelast (firstn n m :: q :: c)) with (firstn n m :: removelast (q :: c)) in I. destruct I as [<-|I].
    + assert (skipn n m <> []). { intros Z. rewrite Z in C. destruct f; discriminate C. }
      rewrite firstn_length. destruct (Nat.le_gt_cases n (length m)); [lia|]. destruct H. apply skipn_all2. lia.
    + rewrite <- C in I. eapply IH; eauto.
Qed.
Lemma chunks_of_len {A} (n : nat) : (0 < n)%nat -> forall fuel (l : list A), (length l <= fuel)%nat ->
  N.of_nat (length (chunks_of fuel n l)) = (N.of_nat (length l) + N.of_nat n - 1) / N.of_nat n.
Proof.
  intros P. induction fuel as [|f IH]; intros l L.
  - destruct l; [|cbn in L; lia]. cbn. symmetry. apply N.div_small. lia.
  - destruct l as [|x l]; [cbn; symmetry; apply N.div_small; lia|]. cbn [chunks_of length].
    rewrite Nat2N.inj_succ, IH by (rewrite skipn_length; cbn [length] in *; lia). rewrite skipn_length. cbn [length].
    set (k := N.of_nat n). assert (K : 0 < k) by (unfold k; lia).
    destruct (Nat.le_gt_cases n (S (length l))) as [G|G].
    + replace (N.of_nat (S (length l)) + k - 1) with ((N.of_nat (S (length l) - n) + k - 1) + 1 * k) by (unfold k; lia).
      rewrite N.div_add by lia. lia.
    + replace (S (length l) - n)%nat with 0%nat by lia. cbn [N.of_nat N.add]. rewrite (N.div_small (k - 1)) by lia.
      apply (N.div_unique _ _ 1 (N.of_nat (S (length l)) - 1)); unfold k; lia.
Qed.

(** A snapshot that is exported passes the check and the numbers are those of the state, if tries are iterated over in order, no hash is 0, and the
    database has the right codes. *)
Theorem C121_export : forall keccak iter s items,
  (forall m, growing 0 (map number_of (iter m))) ->
  (forall k v a c, In (k, v) (iter (trie s)) -> decode_account v = Ok a -> flat s (code_hash a) = Some c -> code_hash a = keccak c) ->
  (forall k v a m, In (k, v) (iter (trie s)) -> decode_account v = Ok a -> saved s k (storage_root a) = Some m -> blen (iter m) < 10000000 * (2 ^ 32 - 1)) ->
  export keccak iter s = Ok items ->
  exists st, check keccak items (Ok tt) = Ok st /\ account_count st = blen (iter (trie s)).
Proof.
  intros keccak iter s items GR CD SZ H. unfold export in H.
  destruct (traverse (export_account keccak iter s) (iter (trie s))) as [l| |] eqn:T; cbn in H; try discriminate. injection H as <-.
  apply traverse_inv in T.
  assert (X : exists gs, l = map written gs /\ (forall g, In g gs -> good_group keccak g)
     /\ map (fun g : group => be_num (ae_hash (fst g))) gs = map number_of (iter (trie s))).
  { assert (SUB : forall x, In x (iter (trie s)) -> In x (iter (trie s))) by auto.
    revert T SUB. generalize (iter (trie s)) at 1 2 4. intros xs T SUB.
    induction T as [|x y xs l E T IH]; [exists []; split; [reflexivity|split; [intros g []|reflexivity]]|].
    destruct IH as (gs & -> & G & M); [intros z Z; apply SUB; now right|].
    unfold export_account in E. destruct (negb (length (fst x) =? 32)%nat); [discriminate|].
    destruct (decode_account (snd x)) as [a| |] eqn:DA; cbn [obind] in E; try discriminate.
    assert (IX : In (fst x, snd x) (iter (trie s))) by (destruct x; apply SUB; now left).
    assert (CO : exists code, code_hash a = keccak code /\
      (if beqb (code_hash a) (keccak_empty keccak) then Ok [] else match flat s (code_hash a) with Some c => Ok c | None => Panic end) = Ok code).
    { destruct (beqb (code_hash a) (keccak_empty keccak)) eqn:B; [apply beqb_spec in B; exists []; auto|].
      destruct (flat s (code_hash a)) as [c|] eqn:F; [|discriminate E]. exists c. split; [exact (CD _ _ _ _ IX DA F)|reflexivity]. }
    destruct CO as (code & CH & CO). rewrite CO in E. cbn [obind] in E.
    assert (ST : exists storage, growing 0 (map number_of storage) /\ blen storage < 10000000 * (2 ^ 32 - 1) /\
      (if beqb (storage_root a) (empty_root keccak) then Ok [] else obind (of_option (saved s (fst x) (storage_root a))) (fun m => traverse export_slot (iter m))) = Ok storage).
    { destruct (beqb (storage_root a) (empty_root keccak)); [exists []; cbn; repeat split; reflexivity|].
      destruct (saved s (fst x) (storage_root a)) as [m|] eqn:SV; cbn [of_option obind] in *; [|discriminate].
      destruct (traverse export_slot (iter m)) as [st| |] eqn:TS; cbn [obind] in E; try discriminate. exists st.
      pose proof (SZ _ _ _ _ IX DA SV) as SZ'. apply traverse_inv in TS.
      assert (EQ : map number_of st = map number_of (iter m) /\ length st = length (iter m)).
      { clear -TS. induction TS as [|u v us vs E T [IH1 IH2]]; [auto|]. cbn. rewrite IH1, IH2. split; [|reflexivity]. f_equal.
        unfold export_slot in E. destruct (negb _); [discriminate|]. destruct (decode_uint (snd u)); try discriminate. injection E as <-. reflexivity. }
      destruct EQ as [E1 E2]. rewrite E1. split; [apply GR|]. split; [|reflexivity]. unfold blen in *. now rewrite E2. }
    destruct ST as (storage & SG & SB & ST). rewrite ST in E. cbn [obind] in E. injection E as <-.
    assert (PN : (0 < N.to_nat MAX_STORAGE_ITEMS)%nat) by (unfold MAX_STORAGE_ITEMS; lia).
    exists ((mk_entry (fst x) a code (div_ceil (blen storage) MAX_STORAGE_ITEMS mod 2 ^ 32), chunks MAX_STORAGE_ITEMS storage) :: gs).
    split; [reflexivity|]. split; [|cbn; rewrite M; reflexivity].
    intros g [<-|I]; [|auto]. unfold good_group. cbn [fst snd ae_state ae_code ae_count]. split; [exact CH|]. split; [|split].
    - unfold blen at 1. unfold chunks. rewrite chunks_of_len by (auto; lia). rewrite N2Nat.id. unfold div_ceil, blen.
      rewrite N.mod_small; [reflexivity|]. apply N.div_lt_upper_bound; [discriminate|]. revert SB. unfold blen, MAX_STORAGE_ITEMS. change (2 ^ 32) with 4294967296. lia.
    - intros p I. unfold chunks in I. apply chunks_of_full in I; auto. unfold blen. rewrite I. unfold MAX_STORAGE_ITEMS. lia.
    - unfold chunks. now rewrite chunks_of_concat by (auto; lia). }
  destruct X as (gs & -> & G & M).
  assert (M2 : growing 0 (map (fun g : group => be_num (ae_hash (fst g))) gs)) by (rewrite M; apply GR). exists (numbers gs). split.
  - apply C121_check. split; [reflexivity|]. exists gs. split; [reflexivity|]. split; [|reflexivity]. split; [exact M2|exact G].
  - cbn [account_count numbers]. unfold blen. f_equal. apply (f_equal (@length _)) in M. now rewrite !map_length in M.
Qed.
Print Assumptions C121_export.

(** The check says nothing about the state root or the storage roots: a file whose accounts have any such roots passes. *)
Theorem C121_roots_refuted : forall keccak gs roots, good_file keccak gs ->
  let change g : group := (mk_entry (ae_hash (fst g)) (mk_account (nonce (ae_state (fst g))) (balance (ae_state (fst g))) (roots (ae_hash (fst g))) (code_hash (ae_state (fst g)))) (ae_code (fst g)) (ae_count (fst g)), snd g) in
  check keccak (concat (map written (map change gs))) (Ok tt) = check keccak (concat (map written gs)) (Ok tt).
Proof.
  intros keccak gs roots [W G] change.
  rewrite (proj2 (C121_check keccak (concat (map written gs)) (Ok tt) (numbers gs))) by (split; [reflexivity|]; exists gs; split; [reflexivity|split; [split; [exact W|exact G]|reflexivity]]).
  apply C121_check. split; [reflexivity|]. exists (map change gs). split; [reflexivity|]. split; [split|].
  - rewrite map_map. exact W.
  - intros g I. apply in_map_iff in I as (g0 & <- & I). exact (G g0 I).
  - unfold numbers. rewrite !map_map. cbn [change snd]. f_equal.
    + unfold blen. now rewrite map_length.
    + unfold blen. f_equal. clear. induction gs as [|g gs IH]; [reflexivity|]. cbn [map filter change fst ae_code]. destruct (ae_code (fst g)); cbn [length]; congruence.
Qed.
Print Assumptions C121_roots_refuted.

(** A file that ends after some of its accounts passes: the reader takes the end of the file for the end of the state. *)
Theorem C121_cut_refuted : forall keccak gs1 gs2, good_file keccak (gs1 ++ gs2) ->
  check keccak (concat (map written gs1)) (Ok tt) = Ok (numbers gs1).
Proof.
  intros keccak gs1 gs2 [W G]. apply C121_check. split; [reflexivity|]. exists gs1. split; [reflexivity|]. split; [|reflexivity]. split.
  - rewrite map_app in W. now apply growing_app in W.
  - intros g I. apply G, in_or_app. now left.
Qed.
Print Assumptions C121_cut_refuted.

(** Two accounts, one with two slots; the same in the wrong order; a part missing. *)
Definition toy_keccak (b : bytes) : bytes := [blen b].
Definition toy_entry (h : N) (code : bytes) (n : N) : account_entry := mk_entry [h] (mk_account 0 0 [] (toy_keccak code)) code n.
Example C121_example :
  let a : snap_item := Account (toy_entry 3 [9; 9] 1) in let b : snap_item := Account (toy_entry 5 [] 0) in let x : snap_item := Storage [([1], 7); ([2], 8)] in
  check toy_keccak [a; x; b] (Ok tt) = Ok {| account_count := 2; bytecode_count := 1; storage_entry_count := 1; storage_item_count := 2 |}
  /\ check toy_keccak [b; a; x] (Ok tt) = Panic
  /\ check toy_keccak [a; b] (Ok tt) = Err
  /\ good_file toy_keccak [(toy_entry 3 [9; 9] 1, [[([1], 7); ([2], 8)]]); (toy_entry 5 [] 0, [])].
Proof.
  cbv zeta. repeat (split; [vm_compute; reflexivity|]). split; [vm_compute; auto|].
  intros g [<-|[<-|[]]]; (split; [reflexivity|]); (split; [reflexivity|]); (split; [intros p []|]); vm_compute; auto.
Qed.
(** The toy export of ExecSnap_Props: its state in the order of its hashes. *)
Example C121_export_example :
  omap (fun st => (account_count st, bytecode_count st, storage_entry_count st, storage_item_count st)) (obind toy_snapshot (fun l => check Toy.h l (Ok tt))) = Ok (2, 1, 1, 1).
Proof. vm_compute. reflexivity. Qed.
