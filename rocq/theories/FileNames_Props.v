(** C131: the names of files. *)
From Coq Require Import String Ascii.
From Verif Require Import Base Hex_Model Ping_Model Args_Model Args_Spec Args_Proofs Trie_Model FileIndex_Model FileIndex_Spec FileIndex_Props HeadGen_Model FileNames_Model FileNames_Spec.

Lemma digits_zeros s n : digits s n -> forall k, digits (repeat 48 k ++ s) n.
Proof.
  intros D. induction k as [|k IH]; [exact D|]. cbn [repeat app]. revert IH. generalize (repeat 48 k ++ s). clear. intros t D.
  induction D as [d L|t n d D IH L]; [exact (digit_more [48 + 0] 0 d (digit_one 0 ltac:(lia)) L)|]. exact (digit_more (48 :: t) n d IH L).
Qed.
Lemma padded_digits w n : n < 2 ^ 64 -> digits (padded w n) n.
Proof. intros L. apply digits_zeros. unfold write. change 20%nat with (S 19). apply write_digits_digits. eapply N.lt_trans; [exact L|]. vm_compute. reflexivity. Qed.
Lemma write_length fuel : forall k n, n < 10 ^ N.of_nat (S k) -> (length (write_digits fuel n) <= S k)%nat.
Proof.
  induction fuel as [|fuel IH]; intros k n L; [cbn; lia|]. cbn [write_digits]. rewrite app_length. cbn [length]. destruct (N.ltb_spec n 10) as [B|B]; [cbn; lia|].
  destruct k as [|k]; [change (10 ^ N.of_nat 1) with 10 in L; lia|]. assert (n / 10 < 10 ^ N.of_nat (S k)).
  { apply N.div_lt_upper_bound; [lia|]. rewrite (Nat2N.inj_succ (S k)), N.pow_succ_r' in L. exact L. }
  specialize (IH k _ H). lia.
Qed.
Lemma padded_length k n : n < 10 ^ N.of_nat (S k) -> length (padded (S k) n) = S k.
Proof. intros L. unfold padded. rewrite app_length, repeat_length. pose proof (write_length 20 k n L). unfold write in *. lia. Qed.
Lemma digits_unique s n : digits s n -> forall t, digits t n -> length s = length t -> s = t.
Proof.
  induction 1 as [d L|s n d D IH L]; intros t T E.
  - inversion T as [e Le E1 E2|t' m e T' Le E1 E2]; subst; [reflexivity|]. rewrite app_length in E. cbn in E. pose proof (digits_not_nil _ _ T'). destruct t'; [congruence|cbn in E; lia].
  - inversion T as [e Le E1 E2|t' m e T' Le E1 E2]; subst.
    + rewrite app_length in E. cbn in E. pose proof (digits_not_nil _ _ D). destruct s; [congruence|cbn in E; lia].
    + rewrite !app_length in E. cbn in E. assert (m = n /\ e = d) as (-> & ->) by lia. f_equal. apply IH; [exact T'|lia].
Qed.
Lemma digits_less s n : digits s n -> forall t m, digits t m -> length s = length t -> n < m -> exists p x y a b, s = p ++ x :: a /\ t = p ++ y :: b /\ x < y.
Proof.
  induction 1 as [d L|s n d D IH L]; intros t m T E Lt.
  - inversion T as [e Le E1 E2|t' m' e T' Le E1 E2]; subst; [|rewrite app_length in E; cbn in E; pose proof (digits_not_nil _ _ T'); destruct t'; [congruence|cbn in E; lia]].
    exists [], (48 + d), (48 + m), [], []. split; [reflexivity|]. split; [reflexivity|lia].
  - inversion T as [e Le E1 E2|t' m' e T' Le E1 E2]; subst; [rewrite app_length in E; cbn in E; pose proof (digits_not_nil _ _ D); destruct s; [congruence|cbn in E; lia]|].
    rewrite !app_length in E. cbn in E. destruct (N.lt_ge_cases n m') as [Lm|Lm].
    + destruct (IH t' m' T' ltac:(lia) Lm) as (p & x & y & a & b & -> & -> & Lx). exists p, x, y, (a ++ [48 + d]), (b ++ [48 + e]). rewrite <- !app_assoc. split; [reflexivity|]. split; [reflexivity|exact Lx].
    + assert (n = m') by lia. subst m'. rewrite (digits_unique _ _ D _ T' ltac:(lia)). exists t', (48 + d), (48 + e), [], []. split; [reflexivity|]. split; [reflexivity|lia].
Qed.
Lemma no_dash_digits s n : digits s n -> ~ In 45 s.
Proof. intros D I. apply digits_chars in D. rewrite Forall_forall in D. apply D in I. lia. Qed.
Lemma no_dash_hash h ext : hash_bytes h -> ~ In 45 ext -> ~ In 45 (short_hash h ++ ext).
Proof.
  intros H Ne I. apply in_app_iff in I as [I|I]; [|contradiction]. unfold short_hash, hex_chars in I. apply in_flat_map in I as (x & Ix & I).
  assert (Lx : x < 256). { unfold hash_bytes in H. rewrite Forall_forall in H. apply H. rewrite <- (firstn_skipn 4 h). apply in_app_iff. now left. }
  unfold hex_digit in I. destruct I as [I|[I|[]]]; [destruct (x / 16 <? 10)|destruct (x mod 16 <? 10)]; lia.
Qed.
Lemma name_pieces w i h ext : i < 2 ^ 64 -> hash_bytes h -> ~ In 45 ext ->
  split 45 (lit "mainnet-" ++ padded w i ++ lit "-" ++ short_hash h ++ ext) = [lit "mainnet"; padded w i; short_hash h ++ ext].
Proof.
  intros L H Ne. change (lit "mainnet-" ++ padded w i ++ lit "-" ++ short_hash h ++ ext) with (lit "mainnet" ++ 45 :: (padded w i ++ 45 :: (short_hash h ++ ext))).
  rewrite split_app' by (intros I; vm_compute in I; repeat (destruct I as [I|I]; [discriminate|]); exact I). rewrite split_app' by exact (no_dash_digits _ _ (padded_digits w i L)). rewrite split_no by (apply no_dash_hash; assumption). reflexivity.
Qed.
Lemma ext_no_dash e : forallb (fun c => negb (c =? 45)) (lit e) = true -> ~ In 45 (lit e).
Proof. intros F I. rewrite forallb_forall in F. apply F in I. discriminate. Qed.
(** The number in the name of a file is the file's: for the writer that goes on after the last file and for the readers of a page of links *)
Theorem C131_index : forall i h, i < 2 ^ 64 -> hash_bytes h ->
  extract_index (e2hs_name i h) = Ok i /\ (for_mainnet (e2hs_name i h) /\ forall n, numbered (e2hs_name i h) n <-> n = i) /\ (for_mainnet (e2ss_name i h) /\ forall n, numbered (e2ss_name i h) n <-> n = i).
Proof.
  intros i h L H. unfold e2hs_name, e2ss_name.
  assert (P : forall w, parse_u64 (padded w i) = Some i) by (intros w; apply parse_u64_iff; split; [exact L|left; apply padded_digits; exact L]).
  assert (G : forall w ext, ~ In 45 ext -> let x := lit "mainnet-" ++ padded w i ++ lit "-" ++ short_hash h ++ ext in for_mainnet x /\ forall n, numbered x n <-> n = i).
  { intros w ext Ne x. split; [exists [], (padded w i ++ lit "-" ++ short_hash h ++ ext); reflexivity|]. intros n. rewrite <- epoch_iff. unfold epoch_index, x. rewrite name_pieces by assumption. rewrite P. split; [intros [= ->]; reflexivity|intros ->; reflexivity]. }
  split; [|split; apply G; apply ext_no_dash; reflexivity]. unfold extract_index. rewrite name_pieces; [rewrite P; reflexivity|exact L|exact H|apply ext_no_dash; reflexivity].
Qed.
(** Two files with different numbers have different names *)
Theorem C131_distinct : forall i j h h', i < 2 ^ 64 -> j < 2 ^ 64 -> hash_bytes h -> hash_bytes h' -> e2hs_name i h = e2hs_name j h' \/ e2ss_name i h = e2ss_name j h' -> i = j.
Proof.
  intros i j h h' Li Lj H H' [E|E].
  - destruct (C131_index i h Li H) as (A & _), (C131_index j h' Lj H') as (B & _). rewrite E in A. congruence.
  - destruct (C131_index i h Li H) as (_ & _ & _ & A), (C131_index j h' Lj H') as (_ & _ & _ & B). rewrite E in A. symmetry. apply A. apply B. reflexivity.
Qed.
Lemma padded_before k i j x y z : i < j -> j < 10 ^ N.of_nat (S k) -> (S k <= 19)%nat -> before (x ++ padded (S k) i ++ y) (x ++ padded (S k) j ++ z).
Proof.
  intros L Lj Kb. assert (B : 10 ^ N.of_nat (S k) < 2 ^ 64) by (eapply N.le_lt_trans; [apply N.pow_le_mono_r with (c := 19); lia|vm_compute; reflexivity]).
  destruct (digits_less _ _ (padded_digits (S k) i ltac:(lia)) _ _ (padded_digits (S k) j ltac:(lia))) as (p & a & b & s & t & E1 & E2 & Lab); [rewrite !padded_length by lia; reflexivity|exact L|].
  left. exists (x ++ p), a, b, (s ++ y), (t ++ z). rewrite E1, E2, <- !app_assoc. split; [reflexivity|]. split; [reflexivity|exact Lab].
Qed.
(** In a list of names history files are in the order of their numbers, below 100000; state files below 10000000000 *)
Theorem C131_order : forall i j h h', i < j -> (j < 100000 -> before (e2hs_name i h) (e2hs_name j h')) /\ (j < 10000000000 -> before (e2ss_name i h) (e2ss_name j h')).
Proof. intros i j h h' L. split; intros Lj; unfold e2hs_name, e2ss_name; [apply (padded_before 4)|apply (padded_before 9)]; try exact L; try exact Lj; lia. Qed.
Lemma before_asym a b : before a b -> before b a -> False.
Proof.
  revert b. induction a as [|x a IH]; intros b A B.
  - destruct B as [(p & u & v & s & t & E1 & E2 & L)|(y & t & E)]; [destruct p; discriminate|destruct b; discriminate].
  - destruct b as [|y b].
    + destruct A as [(p & u & v & s & t & E1 & E2 & L)|(z & t & E)]; [destruct p; discriminate|discriminate].
    + assert (K : forall x y a b, before (x :: a) (y :: b) -> x < y \/ x = y /\ before a b).
      { clear. intros x y a b [(p & u & v & s & t & E1 & E2 & L)|(z & t & E)].
        - destruct p as [|q p]; injection E1 as -> ->; injection E2 as -> ->; [left; exact L|right; split; [reflexivity|]]. left. exists p, u, v, s, t. auto.
        - injection E as -> ->. right. split; [reflexivity|]. right. eauto. }
      apply K in A, B. destruct A as [A|(E & A)], B as [B|(E' & B)]; [lia|lia|lia|exact (IH b A B)].
Qed.
(** Not so: that this holds for all numbers.  History file 100000 comes before all from 10001 to 99999, whatever the hashes *)
Theorem C131_order_refuted : forall i h h', 10001 <= i -> i < 100000 -> before (e2hs_name 100000 h) (e2hs_name i h').
Proof.
  intros i h h' L1 L2. unfold e2hs_name.
  destruct (digits_less (padded 5 10000) 10000 (padded_digits 5 10000 ltac:(lia)) (padded 5 i) i (padded_digits 5 i ltac:(lia))) as (p & a & b & s & t & E1 & E2 & Lab); [rewrite !(padded_length 4) by (change (10 ^ N.of_nat 5) with 100000; lia); reflexivity|lia|].
  assert (E3 : padded 5 100000 = padded 5 10000 ++ [48]) by (vm_compute; reflexivity). rewrite E3, E1, E2. left. exists (lit "mainnet-" ++ p), a, b, (s ++ [48] ++ lit "-" ++ short_hash h ++ lit ".e2hs"), (t ++ lit "-" ++ short_hash h' ++ lit ".e2hs").
  rewrite <- !app_assoc. split; [reflexivity|]. split; [reflexivity|exact Lab].
Qed.
Lemma last_key_all pages : forall acc, last_key (map Ok pages) acc = match rev (concat pages) with k :: _ => Some k | [] => acc end.
Proof.
  induction pages as [|p ps IH]; intros acc; [reflexivity|]. cbn [map last_key concat]. rewrite IH, rev_app_distr. destruct (rev (concat ps)); [|reflexivity]. cbn [app]. destruct (rev p); reflexivity.
Qed.
(** The writer goes on after the file with the highest number, if the bucket has nothing but history files with numbers below 100000, however its list is cut into pages *)
Theorem C131_resume : forall pages, let names := concat pages in names <> [] -> StronglySorted before names -> history_names 100000 names ->
  exists last i h, last_key (map Ok pages) None = Some last /\ In last names /\ hash_bytes h /\ last = e2hs_name i h /\ extract_index last = Ok i /\ forall j h', hash_bytes h' -> j < 100000 -> In (e2hs_name j h') names -> j <= i.
Proof.
  intros pages names Ne S H. destruct (exists_last Ne) as (front & last & E). exists last. destruct (H last) as (i & h & Hh & Li & En); [rewrite E; apply in_elt|]. exists i, h.
  split; [rewrite last_key_all; fold names; rewrite E, rev_app_distr; reflexivity|]. split; [rewrite E; apply in_elt|]. split; [exact Hh|]. split; [exact En|]. split; [rewrite En; apply C131_index; [lia|exact Hh]|].
  intros j h' Hj Lj I. destruct (N.le_gt_cases j i) as [|Lt]; [assumption|exfalso]. rewrite E in I, S. apply in_app_iff in I as [I|[I|[]]].
  - assert (B : before (e2hs_name j h') last).
    { clear -S I. induction front as [|f front IH]; [destruct I|]. cbn [app] in S. inversion S as [|? ? S' F]; subst. destruct I as [->|I]; [rewrite Forall_forall in F; apply F; apply in_elt|exact (IH S' I)]. }
    subst last. destruct (C131_order i j h h' Lt) as (O & _). exact (before_asym _ _ (O Lj) B).
  - subst last. assert (i = j) by (apply (C131_distinct i j h h'); [lia|lia|assumption|assumption|left; congruence]). lia.
Qed.
(** A page with links to the history files 0 to count-1, in any order, among links that are not for mainnet, is read, and every file is found under its number *)
Theorem C131_page : forall (resolve : bytes -> option bytes) hrefs count (hash : N -> bytes), 0 < count -> count <= 2 ^ 64 -> (forall i, hash_bytes (hash i)) -> (forall h, resolve h <> None) ->
  (forall i, i < count -> In (e2hs_name i (hash i)) hrefs) -> (forall x, In x hrefs -> for_mainnet x -> exists i, i < count /\ x = e2hs_name i (hash i)) ->
  exists l, get_e2hs_files resolve (Some hrefs) = Ok l /\ (forall i, i < count -> file l i = resolve (e2hs_name i (hash i))) /\ forall i, count <= i -> file l i = None.
Proof.
  intros resolve hrefs count hash P Cb Hh Rs A B.
  assert (Lk : forall n, linked hrefs n <-> n < count).
  { intros n. split.
    - intros (x & I & Fm & Nu). destruct (B x I Fm) as (i & Li & ->). destruct (C131_index i (hash i) ltac:(lia) (Hh i)) as (_ & (_ & U) & _). apply U in Nu. lia.
    - intros L. exists (e2hs_name n (hash n)). destruct (C131_index n (hash n) ltac:(lia) (Hh n)) as (_ & (Fm & U) & _). split; [exact (A n L)|]. split; [exact Fm|now apply U]. }
  destruct (C129_complete resolve hrefs count P) as (_ & (l & E) & _).
  - intros x I (Fm & [Nn|Rn]); [|exact (Rs x Rn)]. destruct (B x I Fm) as (i & Li & ->). destruct (C131_index i (hash i) ltac:(lia) (Hh i)) as (_ & (_ & U) & _). apply (Nn i). now apply U.
  - exact Lk.
  - exists l. split; [exact E|]. destruct (C129_consecutive resolve (Some hrefs) l (or_intror E)) as (hrefs' & c' & [= <-] & _ & F & L' & La).
    assert (c' = count). { destruct (N.lt_trichotomy c' count) as [T|[T|T]]; [|exact T|]; [assert (X : c' < c') by (apply L', Lk; exact T)|assert (X : count < count) by (apply Lk, L'; exact T)]; lia. } subst c'. split.
    + intros i L. destruct (proj2 (F i) L) as (u & U). rewrite U. apply La in U as (b & x & a & Eh & Fm & Nu & R & _). destruct (B x) as (j & Lj & ->); [rewrite Eh; apply in_elt|exact Fm|].
      destruct (C131_index j (hash j) ltac:(lia) (Hh j)) as (_ & (_ & V) & _). apply V in Nu. subst j. symmetry. exact R.
    + intros i L. destruct (file l i) eqn:U; [|reflexivity]. assert (i < count) by (apply F; eauto). lia.
Qed.
Print Assumptions C131_index.
Print Assumptions C131_distinct.
Print Assumptions C131_order.
Print Assumptions C131_order_refuted.
Print Assumptions C131_resume.
Print Assumptions C131_page.

Example C131_case :
  e2hs_name 7 (170 :: repeat 187 31) = lit "mainnet-00007-aabbbbbb.e2hs" /\ e2ss_name 123456 (1 :: repeat 0 31) = lit "mainnet-0000123456-01000000.e2ss" /\ e2hs_name 123456 (repeat 0 32) = lit "mainnet-123456-00000000.e2hs" /\
  extract_index (lit "mainnet-00007-aabbbbbb.e2hs") = Ok 7 /\ extract_index (lit "index.html") = Err /\
  (let names := [[e2hs_name 0 (repeat 0 32); e2hs_name 1 (repeat 255 32)]; []; [e2hs_name 2 (repeat 3 32)]] in
   history_names 100000 (concat names) /\ StronglySorted before (concat names) /\ last_key (map Ok names) None = Some (lit "mainnet-00002-03030303.e2hs")).
Proof.
  do 5 (split; [vm_compute; reflexivity|]). cbn zeta. split; [|split].
  - intros x [<-|[<-|[<-|[]]]]; (eexists; eexists; split; [|split; [|reflexivity]]; [apply Forall_forall; intros y I; apply repeat_spec in I; lia|lia]).
  - assert (O : forall i j h h', i < j -> j < 100000 -> before (e2hs_name i h) (e2hs_name j h')) by (intros i j h h' L1 L2; apply C131_order; assumption). cbn [concat app].
    constructor; [constructor; [constructor; [constructor|constructor]|constructor; [apply O; lia|constructor]]|constructor; [apply O; lia|constructor; [apply O; lia|constructor]]].
  - vm_compute. reflexivity.
Qed.
