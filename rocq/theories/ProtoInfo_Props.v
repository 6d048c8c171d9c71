(** What nodes say of their protocol. *)
From Verif Require Import Base Trie_Model Trie_Codec StateContent_Model ExecDb_Model ExecDb_Proofs ProtoInfo_Model ProtoInfo_Spec.

Lemma number_of_version n : number (version_of n) = n.
Proof. unfold version_of. destruct (N.eqb_spec n 0), (N.eqb_spec n 1), (N.eqb_spec n 2); cbn; congruence. Qed.
Lemma version_of_named n : n < 256 -> named (version_of n).
Proof. intros H. unfold version_of. destruct (N.eqb_spec n 0), (N.eqb_spec n 1), (N.eqb_spec n 2); cbn; try exact Logic.I. lia. Qed.
Lemma version_of_number v : named v -> version_of (number v) = v.
Proof. destruct v as [| | |n]; cbn; intros H; try reflexivity. unfold version_of. destruct (N.eqb_spec n 0), (N.eqb_spec n 1), (N.eqb_spec n 2); [lia|lia|lia|lia|lia|lia|lia|reflexivity]. Qed.
Lemma named_inj a b : named a -> named b -> number a = number b -> a = b.
Proof. intros A B E. rewrite <- (version_of_number a A), <- (version_of_number b B). congruence. Qed.
Lemma version_eq_dec (a b : version) : {a = b} + {a <> b}.
Proof. decide equality. apply N.eq_dec. Qed.

(** Two names for a version, and no third. *)
Theorem C122_names : (forall n, n < 256 -> named (version_of n) /\ number (version_of n) = n) /\ (forall a b, named a -> named b -> (number a = number b <-> a = b)).
Proof.
  split; [intros n H; split; [now apply version_of_named|apply number_of_version]|].
  intros a b A B. split; [now apply named_inj|congruence].
Qed.
Print Assumptions C122_names.

(** Only intervals that are not empty are made. *)
Theorem C122_new : forall a b c i, new_info a b c = Ok i <-> number a <= number b /\ i = {| lowest := a; highest := b; chain := c |}.
Proof. intros a b c i. unfold new_info. destruct (N.leb_spec (number a) (number b)) as [L|L]; split; [intros [= <-]; auto|intros [_ ->]; reflexivity|discriminate|intros [X _]; lia]. Qed.
Print Assumptions C122_new.
Theorem C122_supports : forall i v, supports i v = true <-> has i v.
Proof. intros i v. unfold supports, has. rewrite andb_true_iff, !N.leb_le. tauto. Qed.
Print Assumptions C122_supports.

Lemma in_span a b n : In n (span a b) <-> a <= n <= b.
Proof.
  unfold span. rewrite in_map_iff. split.
  - intros (k & <- & K). apply in_seq in K. lia.
  - intros H. exists (N.to_nat (n - a)). split; [lia|]. apply in_seq. lia.
Qed.
Lemma span_sorted a b : StronglySorted N.lt (span a b).
Proof.
  unfold span. generalize (N.to_nat (b + 1 - a)), 0%nat. intros n. induction n as [|n IH]; intros s; cbn [seq map]; [constructor|]. constructor; [apply IH|].
  apply Forall_forall. intros x X. apply in_map_iff in X as (k & <- & K). apply in_seq in K. lia.
Qed.
Lemma find_app {A} (f : A -> bool) a b : find f (a ++ b) = match find f a with Some x => Some x | None => find f b end.
Proof. induction a as [|x a IH]; [reflexivity|]. cbn. destruct (f x); [reflexivity|exact IH]. Qed.
Lemma find_rev_last (f : N -> bool) l x : StronglySorted N.lt l -> find f (rev l) = Some x -> f x = true /\ In x l /\ forall y, In y l -> f y = true -> y <= x.
Proof.
  intros S. induction S as [|z l S IH F]; [discriminate|]. cbn [rev]. rewrite find_app. destruct (find f (rev l)) as [w|] eqn:E.
  - intros [= ->]. destruct (IH eq_refl) as (A & B & C). split; [exact A|]. split; [now right|]. intros y [<-|Y] Fy; [|auto].
    rewrite Forall_forall in F. specialize (F _ B). lia.
  - cbn. destruct (f z) eqn:Fz; [|discriminate]. intros [= <-]. split; [exact Fz|]. split; [now left|]. intros y [<-|Y] Fy; [lia|].
    apply List.find_none with (x := y) in E; [congruence|]. now apply -> in_rev.
Qed.
Lemma find_map {A B} (f : B -> bool) (g : A -> B) l : find f (map g l) = option_map g (find (fun x => f (g x)) l).
Proof. induction l as [|x l IH]; [reflexivity|]. cbn. destruct (f (g x)); [reflexivity|exact IH]. Qed.

(** The version two nodes use is the greatest that both have, under its own name; there is none exactly if the chains differ or no version is common. *)
Theorem C122_common : forall i j, sound i ->
  (forall v, highest_common i j = Some v <-> chain i = chain j /\ named v /\ has i v /\ has j v /\ forall w, has i w -> has j w -> number w <= number v)
  /\ (highest_common i j = None <-> chain i <> chain j \/ forall w, ~ (has i w /\ has j w)).
Proof.
  intros i j [[_ HI] _].
  assert (F : forall x, find (fun n => supports j (version_of n)) (rev (span (number (lowest i)) (number (highest i)))) = Some x ->
    has i (version_of x) /\ has j (version_of x) /\ x < 256 /\ forall w, has i w -> has j w -> number w <= x).
  { intros x X. apply find_rev_last in X as (A & B & C); [|apply span_sorted]. apply in_span in B. apply C122_supports in A.
    split; [unfold has; rewrite number_of_version; exact B|]. split; [exact A|]. split; [lia|]. intros w W1 W2. apply C; [now apply in_span|].
    apply C122_supports. unfold has in *. now rewrite number_of_version. }
  assert (NF : find (fun n => supports j (version_of n)) (rev (span (number (lowest i)) (number (highest i)))) = None -> forall w, ~ (has i w /\ has j w)).
  { intros E w [W1 W2]. apply List.find_none with (x := number w) in E; [|apply -> in_rev; now apply in_span].
    assert (T : supports j (version_of (number w)) = true) by (apply C122_supports; unfold has in *; now rewrite number_of_version). congruence. }
  unfold highest_common. rewrite find_map.
  destruct (N.eqb_spec (chain i) (chain j)) as [E|E].
  - destruct (find _ _) as [x|] eqn:X; cbn [option_map].
    + destruct (F x eq_refl) as (A & B & L & M). split.
      * intros v. split.
        -- intros [= <-]. split; [exact E|]. split; [now apply version_of_named|]. rewrite number_of_version. auto.
        -- intros (_ & Nv & A' & B' & M'). f_equal. apply named_inj; [now apply version_of_named|exact Nv|]. rewrite number_of_version.
           specialize (M v A' B'). specialize (M' _ A B). rewrite number_of_version in M'. lia.
      * split; [discriminate|]. intros [H|H]; [contradiction|]. destruct (H (version_of x)). auto.
    + specialize (NF eq_refl). split.
      * intros v. split; [discriminate|]. intros (_ & _ & A & B & _). destruct (NF v). auto.
      * split; auto.
  - split.
    + intros v. split; [discriminate|]. intros [H _]. contradiction.
    + split; auto.
Qed.
Print Assumptions C122_common.

(** Both ends choose the same version. *)
Theorem C122_agree : forall i j, sound i -> sound j -> highest_common i j = highest_common j i.
Proof.
  intros i j I J. destruct (C122_common i j I) as [S1 N1], (C122_common j i J) as [S2 N2].
  destruct (highest_common i j) as [v|] eqn:E.
  - symmetry. apply S2. destruct (proj1 (S1 v) eq_refl) as (A & B & C & D & F). repeat split; auto; try apply C; try apply D.
  - symmetry. apply N2. destruct (proj1 N1 eq_refl) as [H|H]; [left; congruence|right]. intros w [A B]. apply (H w). auto.
Qed.
Print Assumptions C122_agree.

(** A node and a newer one: the newer keeps the older's versions iff they can talk. *)
Theorem C122_no_gap : forall i j v, sound i -> sound j -> chain i = chain j -> number (lowest j) <= number (highest i) -> number (lowest i) <= number (highest j) ->
  (highest_common i j = Some v -> number v = N.min (number (highest i)) (number (highest j))) /\ highest_common i j <> None.
Proof.
  intros i j v I J E A B. destruct (C122_common i j I) as [S N]. pose proof I as [I1 I2]. pose proof J as [J1 J2].
  set (m := N.min (number (highest i)) (number (highest j))).
  assert (H : has i (version_of m) /\ has j (version_of m)) by (unfold has; rewrite number_of_version; unfold m; lia). split.
  - intros V. apply S in V as (_ & _ & V1 & V2 & V3). specialize (V3 _ (proj1 H) (proj2 H)). rewrite number_of_version in V3. unfold has in *. unfold m in *. lia.
  - intros X. apply N in X as [X|X]; [contradiction|]. exact (X _ H).
Qed.
Print Assumptions C122_no_gap.

(** ** Bytes *)
Lemma take_uint_ok k x rest : (k <= 32)%nat -> x < 256 ^ N.of_nat k -> take_uint k (rlp_uint x ++ rest) = Some (x, rest).
Proof.
  intros K X. unfold take_uint. destruct (uint_item x) as [_ U]. rewrite U. rewrite app_length.
  replace (length (rlp_uint x) + length rest - length rest)%nat with (length (rlp_uint x)) by lia.
  rewrite firstn_app, firstn_all, Nat.sub_diag, firstn_O, app_nil_r. now rewrite as_uint_ok.
Qed.
Lemma trim_repeat k p : trim (repeat 0 k ++ p) = trim p.
Proof. induction k as [|k IH]; [reflexivity|exact IH]. Qed.
Lemma be_num_repeat k p : be_num (repeat 0 k ++ p) = be_num p.
Proof. rewrite <- (trim_num (repeat 0 k ++ p)), trim_repeat. apply trim_num. Qed.
Lemma trim_same p : bytes_ok p -> (length p <= 32)%nat -> match p with 0 :: _ => False | _ => True end -> trim (be_bytes 32 (be_num p)) = p.
Proof.
  intros B L Z. assert (E : be_bytes 32 (be_num p) = repeat 0 (32 - length p) ++ p).
  { rewrite <- (be_num_repeat (32 - length p) p). replace 32%nat with (length (repeat 0 (32 - length p) ++ p)) at 1 by (rewrite app_length, repeat_length; lia).
    apply be_bytes_be_num. apply Forall_app. split; [|exact B]. apply Forall_forall. intros x X. apply repeat_spec in X. subst. unfold byte_ok. lia. }
  rewrite E, trim_repeat. destruct p as [|[|x] p]; [reflexivity|contradiction|reflexivity].
Qed.
Lemma split_rest b k p q : rlp_split b = Some (k, p, q) -> b = firstn (length b - length q) b ++ q /\ exists a, firstn (length b - length q) b = a ++ p.
Proof.
  assert (T : forall pre r n k', rlp_take k' n r = Some (k, p, q) -> pre ++ r = firstn (length (pre ++ r) - length q) (pre ++ r) ++ q /\ exists a, firstn (length (pre ++ r) - length q) (pre ++ r) = a ++ p).
  { intros pre r n k' H. unfold rlp_take in H. destruct (blen r <? n) eqn:E; [discriminate|]. injection H as H1 H2 H3.
    assert (R : pre ++ r = (pre ++ p) ++ q) by (rewrite <- H2, <- H3, <- app_assoc, firstn_skipn; reflexivity).
    rewrite R. rewrite (app_length (pre ++ p) q). replace (length (pre ++ p) + length q - length q)%nat with (length (pre ++ p)) by lia.
    rewrite firstn_app, firstn_all, Nat.sub_diag, firstn_O, app_nil_r. split; [reflexivity|]. now exists pre. }
  assert (G : forall x r n k', rlp_long k' n r = Some (k, p, q) -> x :: r = firstn (length (x :: r) - length q) (x :: r) ++ q /\ exists a, firstn (length (x :: r) - length q) (x :: r) = a ++ p).
  { intros x r n k' H. unfold rlp_long in H. destruct (blen r <? n); [discriminate|].
    pose proof (T (x :: firstn (N.to_nat n) r) _ _ k' H) as T'. cbn [app] in T'. rewrite firstn_skipn in T'. exact T'. }
  destruct b as [|x r]; [discriminate|]. cbn [rlp_split].
  assert (T2 : forall n k', rlp_take k' n r = Some (k, p, q) -> x :: r = firstn (length (x :: r) - length q) (x :: r) ++ q /\ exists a, firstn (length (x :: r) - length q) (x :: r) = a ++ p).
  { intros n k' H. exact (T [x] r n k' H). }
  destruct (x <? 128).
  - intros H. injection H as <- <- <-. replace (length (x :: r) - length r)%nat with 1%nat by (cbn [length]; lia). cbn [firstn app]. split; [reflexivity|]. now exists [].
  - destruct (x <? 184); [apply T2|]. destruct (x <? 192); [apply G|]. destruct (x <? 248); [apply T2|apply G].
Qed.
Lemma take_uint_inv k b x rest : (k <= 32)%nat -> bytes_ok b -> take_uint k b = Some (x, rest) -> b = rlp_uint x ++ rest /\ x < 256 ^ N.of_nat k.
Proof.
  intros K B H. unfold take_uint in H. destruct (rlp_split b) as [[[[|] p] q]|] eqn:E; try discriminate.
  apply split_rest in E as [E (a & A)]. unfold as_uint in H.
  destruct (Nat.leb (length p) k) eqn:L; [|discriminate]. apply Nat.leb_le in L. cbn [andb] in H.
  assert (P : bytes_ok p). { rewrite E, A in B. apply Forall_app in B as [B _]. now apply Forall_app in B. }
  destruct (negb match p with 0 :: _ => true | _ => false end) eqn:Z; [|discriminate]. cbn [andb] in H.
  destruct (beqb (firstn (length b - length q) b) (rlp_bytes p)) eqn:R; [|discriminate]. apply beqb_spec in R. injection H as <- <-.
  unfold rlp_uint. rewrite trim_same; [|exact P|lia|destruct p as [|[|y] p]; [exact Logic.I|discriminate|exact Logic.I]]. split; [now rewrite <- R|].
  eapply N.lt_le_trans; [apply be_num_bound, P|]. apply N.pow_le_mono_r; lia.
Qed.

(** What is written is read again by every node, also if more fields follow that the reader does not know; what comes after the list is left. *)
Theorem C122_read : forall lo hi c more rest, lo <= hi < 256 -> c < 2 ^ 64 -> blen more < 2 ^ 63 ->
  decode_info (wire lo hi c more ++ rest) = Ok ({| lowest := version_of lo; highest := version_of hi; chain := c |}, rest).
Proof.
  intros lo hi c more rest [L H] C M. unfold decode_info, wire. set (p := rlp_uint lo ++ rlp_uint hi ++ rlp_uint c ++ more).
  assert (P : blen p < 2 ^ 64).
  { unfold p. rewrite !blen_app. 
    assert (U : forall x, blen (rlp_uint x) <= 33) by (intros x; unfold rlp_uint; pose proof (uint_payload x); pose proof (rlp_bytes_short (trim (be_bytes 32 x))); lia).
    pose proof (U lo). pose proof (U hi). pose proof (U c). change (2 ^ 64) with 18446744073709551616. change (2 ^ 63) with 9223372036854775808 in M. lia. }
  rewrite rlp_list_ok by exact P. rewrite app_length. replace (length (rlp_list p) + length rest - length rest)%nat with (length (rlp_list p)) by lia.
  rewrite firstn_app, firstn_all, Nat.sub_diag, firstn_O, app_nil_r, beqb_refl. cbn [negb]. cbv zeta.
  unfold p at 1. rewrite <- !app_assoc. rewrite take_uint_ok by (try lia; change (256 ^ N.of_nat 1) with 256; lia).
  rewrite take_uint_ok by (try lia; change (256 ^ N.of_nat 1) with 256; lia). rewrite take_uint_ok by (try lia; exact C).
  assert (Q : (length (p ++ rest) - length (more ++ rest) = length p - length more)%nat) by (rewrite !app_length; lia). rewrite Q.
  destruct (length p <? length p - length more)%nat eqn:X; [apply Nat.ltb_lt in X; lia|].
  unfold new_info. rewrite !number_of_version. destruct (N.leb_spec lo hi) as [_|Y]; [|lia]. cbn [omap]. f_equal. f_equal.
  assert (ML : (length more <= length p)%nat) by (unfold p; rewrite !app_length; lia).
  replace (length p - (length p - length more))%nat with (length more) by lia.
  now rewrite skipn_app, skipn_all, Nat.sub_diag.
Qed.
Print Assumptions C122_read.
Theorem C122_round_trip : forall i rest, sound i -> named (lowest i) -> named (highest i) -> decode_info (encode_info i ++ rest) = Ok (i, rest).
Proof.
  intros i rest [L C] A B. pose proof (C122_read (number (lowest i)) (number (highest i)) (chain i) [] rest L C) as R.
  unfold wire in R. rewrite app_nil_r in R. unfold encode_info, fields. rewrite R by reflexivity. rewrite !version_of_number by assumption. now destruct i.
Qed.
Print Assumptions C122_round_trip.
(** Nothing else is read: what is taken is a list that starts with three integers in their only form, with an interval that is not empty. *)
Theorem C122_only : forall b i rest, bytes_ok b -> decode_info b = Ok (i, rest) ->
  sound i /\ named (lowest i) /\ named (highest i) /\ exists more, b = wire (number (lowest i)) (number (highest i)) (chain i) more ++ rest.
Proof.
  intros b i rest B H. unfold decode_info in H. destruct (rlp_split b) as [[[[|] p] q]|] eqn:E; try discriminate.
  apply split_rest in E as [E _]. destruct (beqb (firstn (length b - length q) b) (rlp_list p)) eqn:R; [|discriminate]. apply beqb_spec in R. cbn [negb] in H. cbv zeta in H.
  rewrite R in E. assert (BP : bytes_ok (p ++ q)).
  { rewrite E in B. unfold rlp_list in B. rewrite <- app_assoc in B. now apply Forall_app in B. }
  destruct (take_uint 1 (p ++ q)) as [[lo b1]|] eqn:T1; [|discriminate]. apply take_uint_inv in T1 as [T1 L1]; [|now apply Nat.leb_le|exact BP].
  assert (B1 : bytes_ok b1) by (rewrite T1 in BP; exact (proj2 (proj1 (Forall_app _ _ _) BP))).
  destruct (take_uint 1 b1) as [[hi b2]|] eqn:T2; [|discriminate]. apply take_uint_inv in T2 as [T2 L2]; [|now apply Nat.leb_le|exact B1].
  assert (B2 : bytes_ok b2) by (rewrite T2 in B1; exact (proj2 (proj1 (Forall_app _ _ _) B1))).
  destruct (take_uint 8 b2) as [[c b3]|] eqn:T3; [|discriminate]. apply take_uint_inv in T3 as [T3 L3]; [|now apply Nat.leb_le|exact B2].
  destruct (length p <? length (p ++ q) - length b3)%nat eqn:X; [discriminate|]. apply Nat.ltb_ge in X.
  unfold new_info in H. rewrite !number_of_version in H. destruct (N.leb_spec lo hi) as [L|L]; [|discriminate]. cbn [omap] in H.
  assert (Hi : i = {| lowest := version_of lo; highest := version_of hi; chain := c |}) by congruence.
  assert (Hr : rest = skipn (length p - (length (p ++ q) - length b3)) b3) by congruence. clear H. subst i. cbn [lowest highest chain].
  change (256 ^ N.of_nat 1) with 256 in *. split; [split; cbn [lowest highest chain]; rewrite ?number_of_version; [lia|exact L3]|].
  split; [now apply version_of_named|]. split; [now apply version_of_named|]. rewrite !number_of_version.
  set (f := rlp_uint lo ++ rlp_uint hi ++ rlp_uint c). assert (F : p ++ q = f ++ b3) by (unfold f; rewrite T1, T2, T3, <- !app_assoc; reflexivity).
  assert (LF : (length p + length q = length f + length b3)%nat) by (rewrite <- !app_length; now rewrite F).
  rewrite app_length in X, Hr. assert (PF : p = f ++ firstn (length p - length f) b3 /\ q = skipn (length p - length f) b3).
  { pose proof (f_equal (firstn (length p)) F) as F1. pose proof (f_equal (skipn (length p)) F) as F2.
    rewrite firstn_app, firstn_all, Nat.sub_diag, firstn_O, app_nil_r in F1. rewrite skipn_app, skipn_all, Nat.sub_diag in F2. cbn [app skipn] in F2.
    rewrite firstn_app, (firstn_all2 f) in F1 by lia. rewrite skipn_app, (skipn_all2 f) in F2 by lia. auto. }
  exists (firstn (length p - length f) b3). unfold wire. destruct PF as [PF QF].
  replace (rlp_uint lo ++ rlp_uint hi ++ rlp_uint c ++ firstn (length p - length f) b3) with (f ++ firstn (length p - length f) b3) by (unfold f; now rewrite <- !app_assoc).
  rewrite <- PF, E. f_equal. rewrite QF at 1. rewrite Hr. f_equal. lia.
Qed.
Print Assumptions C122_only.

(** A version that is called unspecified although it has a name: the two are ordered as equal, are not equal, and the record comes back with the name. *)
Theorem C122_unspecified_refuted : forall n, n < 3 ->
  Unspecified n <> version_of n /\ number (Unspecified n) = number (version_of n)
  /\ forall c, c < 2 ^ 64 -> exists i j, new_info (Unspecified n) (Unspecified n) c = Ok i /\ decode_info (encode_info i) = Ok (j, []) /\ j <> i.
Proof.
  intros n L. split; [|split].
  - unfold version_of. destruct (N.eqb_spec n 0), (N.eqb_spec n 1), (N.eqb_spec n 2); try discriminate. lia.
  - now rewrite number_of_version.
  - intros c C. exists {| lowest := Unspecified n; highest := Unspecified n; chain := c |}, {| lowest := version_of n; highest := version_of n; chain := c |}.
    split; [unfold new_info; now rewrite N.leb_refl|]. split.
    + unfold encode_info, fields. cbn [lowest highest chain number]. pose proof (C122_read n n c [] [] ltac:(lia) C eq_refl) as R. unfold wire in R. rewrite !app_nil_r in R. exact R.
    + intros E. injection E as E _. unfold version_of in E. destruct (N.eqb_spec n 0), (N.eqb_spec n 1), (N.eqb_spec n 2); try discriminate. lia.
Qed.
Print Assumptions C122_unspecified_refuted.

(** The cases of the repository's tests; a newer node. *)
Example C122_example :
  let mine := {| lowest := V0; highest := V2; chain := 1 |} in let newer := {| lowest := V1; highest := Unspecified 5; chain := 1 |} in
  encode_info mine = [0xc3; 0x80; 0x02; 0x01] /\ decode_info [0xc6; 0x02; 0x03; 0x01; 0x82; 0xab; 0xcd] = Ok ({| lowest := V2; highest := Unspecified 3; chain := 1 |}, [])
  /\ highest_common mine newer = Some V2 /\ highest_common newer mine = Some V2 /\ highest_common {| lowest := V0; highest := V0; chain := 1 |} newer = None
  /\ decode_info [0xc3; 0x02; 0x01; 0x01] = Err /\ decode_info [0xf8; 0x03; 0x80; 0x02; 0x01] = Err /\ decode_info [0xc2; 0x80; 0x02; 0x01] = Err /\ sound mine /\ sound newer.
Proof. cbv zeta. repeat (split; [vm_compute; reflexivity|]). split; (split; [cbn; lia|reflexivity]). Qed.
