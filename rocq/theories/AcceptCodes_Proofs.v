From Verif Require Import Base AcceptCodes_Model.

Lemma code_of_u8_u8 c : code_of_u8 (code_u8 c) = c.
Proof. destruct c; reflexivity. Qed.

Lemma code_u8_byte c : code_u8 c < 256.
Proof. destruct c; vm_compute; reflexivity. Qed.

Lemma code_eqb_spec a b : code_eqb a b = true <-> a = b.
Proof. destruct a, b; vm_compute; split; congruence. Qed.

(** ** bit lists *)
Lemma bits_num_app1 l : bits_num (l ++ [true]) = bits_num l + 2 ^ blen l.
Proof.
  induction l as [|b l IH].
  - reflexivity.
  - cbn [app bits_num]. rewrite IH, blen_cons, N.pow_add_r. change (2 ^ 1) with 2. lia.
Qed.

Lemma bits_num_bound l : bits_num l < 2 ^ blen l.
Proof.
  induction l as [|b l IH]; [vm_compute; reflexivity|].
  cbn [bits_num]. rewrite blen_cons, N.pow_add_r. change (2 ^ 1) with 2. destruct b; cbn [N.b2n]; lia.
Qed.

Lemma bits_num_testbit l i : (i < length l)%nat ->
  N.testbit (bits_num (l ++ [true])) (N.of_nat i) = nth i l false.
Proof.
  revert i. induction l as [|b l IH]; intros i Hi; [cbn in Hi; lia|].
  cbn [app bits_num]. destruct i as [|i].
  - cbn [nth]. change (N.of_nat 0) with 0. rewrite N.add_comm.
    apply N.testbit_0_r.
  - cbn [nth length] in *. rewrite Nat2N.inj_succ, N.add_comm, N.testbit_succ_r. apply IH. lia.
Qed.

Lemma bitlist_len l : N.log2 (bits_num (l ++ [true])) = blen l.
Proof.
  rewrite bits_num_app1. pose proof (bits_num_bound l).
  apply N.log2_unique; [lia|]. rewrite N.pow_succ_r by lia. lia.
Qed.

Lemma bitlist_round_trip l : (length l <= 64)%nat -> bitlist_decode (bitlist_encode l) = Some l.
Proof.
  intros Hl. unfold bitlist_decode, bitlist_encode.
  pose proof (bits_num_app1 l) as E. pose proof (bits_num_bound l) as B.
  assert (Hlt : bits_num (l ++ [true]) < 256 ^ N.of_nat (S (length l / 8))).
  { rewrite E. apply N.lt_le_trans with (2 ^ (blen l + 1)).
    - rewrite N.pow_add_r. change (2 ^ 1) with 2. lia.
    - change 256 with (2 ^ 8). rewrite <- N.pow_mul_r. apply N.pow_le_mono_r; [discriminate|].
      unfold blen. lia. }
  rewrite le_num_le_bytes_id by exact Hlt.
  destruct (N.eqb_spec (bits_num (l ++ [true])) 0) as [Hz|_]; [pose proof (N.pow_nonzero 2 (blen l)); lia|].
  rewrite bitlist_len.
  assert (Hb : blen (le_bytes (S (length l / 8)) (bits_num (l ++ [true]))) = blen l / 8 + 1).
  { unfold blen. rewrite le_bytes_length. lia. }
  rewrite Hb, N.eqb_refl. cbn [negb].
  destruct (N.ltb_spec 64 (blen l)) as [Hx|_]; [unfold blen in Hx; lia|].
  f_equal. unfold blen. rewrite Nat2N.id. clear - l.
  apply nth_ext with (d := false) (d' := false).
  - rewrite map_length, seq_length. reflexivity.
  - intros n Hn. rewrite map_length, seq_length in Hn.
    rewrite nth_indep with (d' := N.testbit (bits_num (l ++ [true])) (N.of_nat 0))
      by (rewrite map_length, seq_length; assumption).
    rewrite (map_nth (fun i => N.testbit (bits_num (l ++ [true])) (N.of_nat i)) _ 0%nat).
    rewrite seq_nth by assumption. apply bits_num_testbit. assumption.
Qed.

Lemma bits_num_of_testbits n : forall k, n < 2 ^ N.of_nat k ->
  bits_num (map (fun i => N.testbit n (N.of_nat i)) (seq 0 k)) = n.
Proof.
  intros k. revert n. induction k as [|k IH]; intros n Hn.
  - change (2 ^ N.of_nat 0) with 1 in Hn. cbn. lia.
  - cbn [seq map bits_num]. rewrite <- seq_shift, map_map.
    rewrite (map_ext _ (fun i => N.testbit (N.div2 n) (N.of_nat i))).
    + rewrite IH.
      * change (N.of_nat 0) with 0. rewrite N.bit0_odd, N.add_comm. symmetry. apply N.div2_odd.
      * rewrite Nat2N.inj_succ, N.pow_succ_r' in Hn.
        pose proof (N.div2_odd n) as Ho. destruct (N.odd n); cbn [N.b2n] in Ho; lia.
    + intros i. rewrite Nat2N.inj_succ, N.div2_spec, N.shiftr_spec by lia. f_equal. lia.
Qed.

Lemma bitlist_decode_canonical b l : bytes_ok b -> bitlist_decode b = Some l ->
  (length l <= 64)%nat /\ bitlist_encode l = b.
Proof.
  intros Hok. unfold bitlist_decode.
  destruct (N.eqb_spec (le_num b) 0) as [|Hz]; [discriminate|].
  destruct (N.eqb_spec (N.log2 (le_num b) / 8 + 1) (blen b)) as [Hb|]; [|discriminate].
  destruct (N.ltb_spec 64 (N.log2 (le_num b))) as [|H64]; [discriminate|].
  cbn [negb]. intros [= <-]. rewrite map_length, seq_length. split; [lia|].
  set (n := le_num b) in *. set (len := N.log2 n) in *.
  destruct (N.log2_spec n ltac:(lia)) as [L1 L2]. fold len in L1, L2.
  assert (Hn : bits_num (map (fun i => N.testbit n (N.of_nat i)) (seq 0 (N.to_nat len)) ++ [true]) = n).
  { rewrite bits_num_app1. unfold blen at 1. rewrite map_length, seq_length, N2Nat.id.
    rewrite (map_ext_in _ (fun i => N.testbit (n - 2 ^ len) (N.of_nat i))).
    2:{ intros i Hi. apply in_seq in Hi.
        assert (Hnn : n = (n - 2 ^ len) + 1 * 2 ^ len) by lia. rewrite Hnn at 1.
        rewrite <- (N.mod_pow2_bits_low _ len) by lia. rewrite N.mod_add by (apply N.pow_nonzero; discriminate).
        rewrite N.mod_pow2_bits_low by lia. reflexivity. }
    rewrite bits_num_of_testbits; [lia|]. rewrite N2Nat.id. rewrite N.pow_succ_r' in L2. lia. }
  unfold bitlist_encode. rewrite Hn, map_length, seq_length.
  replace (S (N.to_nat len / 8)) with (length b).
  - apply le_bytes_le_num, Hok.
  - unfold blen in Hb. lia.
Qed.

(** ** accept code lists *)
Lemma accept_v1_round_trip v l : is_v1_enabled v = true -> (length l <= 64)%nat ->
  exists raw, accept_list_encode v l = Ok raw /\ bytes_ok raw /\ accept_list_decode v raw = Ok l.
Proof.
  intros Hv Hl. exists (map code_u8 l). unfold accept_list_encode, accept_list_decode. rewrite Hv.
  split; [reflexivity|]. split.
  - apply Forall_forall. intros x Hx. apply in_map_iff in Hx as (c & <- & _). apply code_u8_byte.
  - unfold blen. rewrite map_length. destruct (N.ltb_spec 64 (N.of_nat (length l))); [lia|].
    rewrite map_map. rewrite (map_ext _ (fun c => c)) by apply code_of_u8_u8. rewrite map_id. reflexivity.
Qed.

Lemma accept_v0_round_trip v l : is_v1_enabled v = false -> (length l <= 64)%nat ->
  exists raw, accept_list_encode v l = Ok raw /\ bytes_ok raw /\
    accept_list_decode v raw = Ok (map (fun c => if code_eqb Accepted c then Accepted else Declined) l).
Proof.
  intros Hv Hl. exists (bitlist_encode (map (code_eqb Accepted) l)).
  unfold accept_list_encode, accept_list_decode. rewrite Hv.
  destruct (Nat.ltb_spec 64 (length l)); [lia|].
  split; [reflexivity|]. split; [apply le_bytes_ok|].
  rewrite bitlist_round_trip by (rewrite map_length; assumption). rewrite map_map. reflexivity.
Qed.

Lemma accept_decode_limits v raw l : accept_list_decode v raw = Ok l -> (length l <= 64)%nat.
Proof.
  unfold accept_list_decode. destruct (is_v1_enabled v).
  - destruct (N.ltb_spec 64 (blen raw)) as [|H]; [discriminate|]. intros [= <-]. rewrite map_length.
    unfold blen in H. lia.
  - unfold bitlist_decode. destruct (N.eqb_spec (le_num raw) 0); [discriminate|].
    destruct (negb _); [discriminate|].
    destruct (N.ltb_spec 64 (N.log2 (le_num raw))) as [|H]; [discriminate|].
    intros [= <-]. rewrite !map_length, seq_length. lia.
Qed.

Lemma accept_decode_no_panic v raw : accept_list_decode v raw <> Panic.
Proof.
  unfold accept_list_decode. destruct (is_v1_enabled v).
  - destruct (64 <? blen raw); discriminate.
  - destruct (bitlist_decode raw); discriminate.
Qed.

Lemma accept_codes_wire v l : (length l <= 64)%nat ->
  exists raw l', accept_list_encode v l = Ok raw /\ accept_list_decode v raw = Ok l' /\
    length l' = length l /\
    (forall i, nth_error l' i = Some Accepted <-> nth_error l i = Some Accepted) /\
    (is_v1_enabled v = true -> l' = l) /\
    (is_v1_enabled v = false -> forall i, nth_error l' i = Some Declined <->
       exists c, nth_error l i = Some c /\ c <> Accepted).
Proof.
  intros Hl. destruct (is_v1_enabled v) eqn:Hv.
  - destruct (accept_v1_round_trip v l Hv Hl) as (raw & H1 & H2 & H3).
    exists raw, l. repeat split; try assumption; try tauto; discriminate.
  - destruct (accept_v0_round_trip v l Hv Hl) as (raw & H1 & H2 & H3).
    exists raw. eexists. split; [exact H1|]. split; [exact H3|].
    split; [apply map_length|].
    assert (G : forall i, nth_error (map (fun c => if code_eqb Accepted c then Accepted else Declined) l) i =
       match nth_error l i with Some c => Some (if code_eqb Accepted c then Accepted else Declined) | None => None end).
    { intros i. revert i. clear. induction l as [|c l IH]; intros [|i]; cbn; try reflexivity. apply IH. }
    split; [|split; [discriminate|intros _]].
    + intros i. rewrite G. destruct (nth_error l i) as [c|]; [|split; discriminate].
      destruct c; vm_compute; split; congruence.
    + intros i. rewrite G. destruct (nth_error l i) as [c|]; [|split; [discriminate|intros (?&?&?); discriminate]].
      split.
      * intros H. exists c. split; [reflexivity|]. intros ->. discriminate.
      * intros (c' & [= <-] & Hc). destruct c; vm_compute; congruence.
Qed.

Lemma accept_new_limit n : (exists l, accept_list_new n = Ok l /\ length l = n /\ all_declined l = true) <-> (n <= 64)%nat.
Proof.
  unfold accept_list_new. destruct (Nat.ltb_spec 64 n) as [H|H].
  - split; [intros (l & ? & _); discriminate|lia].
  - split; [intros _; assumption|]. intros _. exists (repeat Declined n).
    split; [reflexivity|]. split; [apply repeat_length|].
    unfold all_declined. apply negb_true_iff. clear H. induction n as [|n IH]; [reflexivity|exact IH].
Qed.

Lemma all_declined_spec l : all_declined l = true <-> ~ In Accepted l.
Proof.
  unfold all_declined. rewrite negb_true_iff. split.
  - intros H Hin. assert (existsb (code_eqb Accepted) l = true); [|congruence].
    apply existsb_exists. exists Accepted. split; [assumption|reflexivity].
  - intros H. apply not_true_is_false. intros E. apply existsb_exists in E as (c & Hc & E).
    apply code_eqb_spec in E. subst. contradiction.
Qed.

(** ** versions *)
Lemma version_eqb_spec a b : version_eqb a b = true <-> a = b.
Proof.
  destruct a, b; cbn; try (split; congruence). rewrite N.eqb_eq. split; congruence.
Qed.

Definition canonical_version (v : protocol_version) : Prop := version_of_u8 (version_u8 v) = v.

Lemma strictly_sorted_from_spec l : forall prev,
  is_strictly_sorted_and_specified_from prev l = true <->
  (forall v, In v l -> v = V0 \/ v = V1 \/ v = V2) /\
  StronglySorted (fun a b => version_u8 a < version_u8 b) l /\
  (forall p v, prev = Some p -> In v l -> version_u8 p < version_u8 v).
Proof.
  induction l as [|v l IH]; intros prev; cbn [is_strictly_sorted_and_specified_from].
  - split; [intros _|reflexivity]. repeat split; [intros ? []|constructor|intros ? ? _ []].
  - assert (Core : v = V0 \/ v = V1 \/ v = V2 ->
      (match prev with
       | Some p => if version_u8 v <=? version_u8 p then false
                   else is_strictly_sorted_and_specified_from (Some v) l
       | None => is_strictly_sorted_and_specified_from (Some v) l end) = true <->
      (forall w, In w (v :: l) -> w = V0 \/ w = V1 \/ w = V2) /\
      StronglySorted (fun a b => version_u8 a < version_u8 b) (v :: l) /\
      (forall p w, prev = Some p -> In w (v :: l) -> version_u8 p < version_u8 w)).
    { intros Hv. specialize (IH (Some v)).
      assert (E : is_strictly_sorted_and_specified_from (Some v) l = true <->
        (forall w, In w (v :: l) -> w = V0 \/ w = V1 \/ w = V2) /\
        StronglySorted (fun a b => version_u8 a < version_u8 b) (v :: l)).
      { rewrite IH. split.
        - intros (A & B & C). split; [intros w [->|Hw]; auto|]. constructor; [assumption|].
          apply Forall_forall. intros w Hw. apply (C v); auto.
        - intros (A & B). inversion B as [|? ? B1 B2]; subst. repeat split; [intros w Hw; apply A; right; assumption|assumption|].
          intros p w [= <-] Hw. rewrite Forall_forall in B2. auto. }
      destruct prev as [p|].
      - destruct (N.leb_spec (version_u8 v) (version_u8 p)) as [Hle|Hlt].
        + split; [discriminate|]. intros (_ & _ & C). specialize (C p v eq_refl (or_introl eq_refl)). lia.
        + rewrite E. split.
          * intros (A & B). repeat split; try assumption. intros q w [= <-] [<-|Hw]; [assumption|].
            inversion B as [|? ? B1 B2]; subst. rewrite Forall_forall in B2. specialize (B2 w Hw). cbn in B2. lia.
          * intros (A & B & _). split; assumption.
      - rewrite E. split; [intros (A & B); repeat split; try assumption; discriminate|intros (A & B & _); split; assumption]. }
    destruct v; try (apply Core; tauto).
    split; [discriminate|]. intros (A & _). specialize (A _ (or_introl eq_refl)). destruct A as [A|[A|A]]; discriminate.
Qed.

Lemma strictly_sorted_spec l :
  is_strictly_sorted_and_specified l = true <->
  (forall v, In v l -> v = V0 \/ v = V1 \/ v = V2) /\
  StronglySorted (fun a b => version_u8 a < version_u8 b) l.
Proof.
  unfold is_strictly_sorted_and_specified. rewrite strictly_sorted_from_spec. split.
  - intros (A & B & _). split; assumption.
  - intros (A & B). repeat split; try assumption. discriminate.
Qed.

Lemma find_rev_max (P : protocol_version -> bool) l v :
  StronglySorted (fun a b => version_u8 a < version_u8 b) l ->
  find P (rev l) = Some v <->
  In v l /\ P v = true /\ (forall w, In w l -> P w = true -> version_u8 w <= version_u8 v).
Proof.
  induction l as [|x l IH]; intros Hs.
  - cbn. split; [discriminate|intros [[] _]].
  - inversion Hs as [|? ? Hs' Hx]; subst. specialize (IH Hs').
    cbn [rev]. rewrite Forall_forall in Hx.
    assert (F : find P (rev l ++ [x]) = match find P (rev l) with Some w => Some w | None => if P x then Some x else None end).
    { clear. induction (rev l) as [|y m IH]; cbn; [reflexivity|]. destruct (P y); [reflexivity|exact IH]. }
    rewrite F. destruct (find P (rev l)) as [w|] eqn:E.
    + pose proof (proj1 (find_some P (rev l) E)) as Hw. apply in_rev in Hw.
      pose proof (proj2 (find_some P (rev l) E)) as HPw.
      split.
      * intros [= ->]. destruct (proj1 IH eq_refl) as (A & B & C). repeat split; [right; assumption|assumption|].
        intros u [<-|Hu] HP; [specialize (Hx _ A); cbn in Hx; lia|auto].
      * intros (A & B & C). destruct A as [<-|A].
        -- specialize (C w (or_intror Hw) HPw). specialize (Hx w Hw). cbn in Hx. lia.
        -- apply IH. repeat split; try assumption. intros u Hu HP. apply C; [right; assumption|assumption].
    + assert (N : forall u, In u l -> P u = false).
      { intros u Hu. apply (find_none P (rev l) E). apply -> in_rev. assumption. }
      destruct (P x) eqn:Px.
      * split.
        -- intros [= <-]. repeat split; [left; reflexivity|assumption|].
           intros w [<-|Hw] HP; [lia|]. rewrite (N w Hw) in HP. discriminate.
        -- intros ([<-|A] & B & _); [reflexivity|]. rewrite (N v A) in B. discriminate.
      * split; [discriminate|]. intros ([<-|A] & B & _); [congruence|]. rewrite (N v A) in B. discriminate.
Qed.

Lemma decode_encode_versions l :
  (length l <= 8)%nat -> (forall v, In v l -> v = V0 \/ v = V1 \/ v = V2) ->
  decode_versions (encode_versions l) = Some l.
Proof.
  intros Hl Hv. unfold decode_versions, encode_versions, blen. rewrite map_length.
  destruct (N.ltb_spec 8 (N.of_nat (length l))); [lia|]. rewrite map_map.
  f_equal. rewrite <- (map_id l) at 2. apply map_ext_in. intros v Hin.
  destruct (Hv v Hin) as [-> | [-> | ->]]; reflexivity.
Qed.

Lemma existsb_version v l : existsb (version_eqb v) l = true <-> In v l.
Proof.
  rewrite existsb_exists. split.
  - intros (w & Hw & E). apply version_eqb_spec in E. subst. assumption.
  - intros H. exists v. split; [assumption|]. apply version_eqb_spec. reflexivity.
Qed.

Lemma negotiate_spec a b v :
  is_strictly_sorted_and_specified a = true -> is_strictly_sorted_and_specified b = true ->
  (length b <= 8)%nat ->
  (latest_common_protocol_version a (Some (encode_versions b)) = Version v <->
     In v a /\ In v b /\ (forall w, In w a -> In w b -> version_u8 w <= version_u8 v)) /\
  (latest_common_protocol_version a (Some (encode_versions b)) = NoMatchingVersion <->
     forall w, In w a -> ~ In w b) /\
  latest_common_protocol_version a (Some (encode_versions b)) <> FailedToDecode.
Proof.
  intros Ha Hb Hl. apply strictly_sorted_spec in Ha as [Ha1 Ha2]. apply strictly_sorted_spec in Hb as [Hb1 Hb2].
  unfold latest_common_protocol_version. rewrite decode_encode_versions by assumption.
  pose proof (find_rev_max (fun v => existsb (version_eqb v) b) a) as F.
  destruct (find _ (rev a)) as [w|] eqn:E.
  - specialize (F w Ha2). destruct (proj1 F eq_refl) as (A & B & C). cbn beta in B. apply existsb_version in B.
    repeat split; try discriminate.
    + injection H as ->. assumption.
    + injection H as ->. assumption.
    + injection H as ->. intros u Hu1 Hu2. apply C; [assumption|]. apply existsb_version. assumption.
    + intros (A' & B' & C'). f_equal.
      assert (version_u8 w = version_u8 v).
      { apply N.le_antisymm; [apply C'; assumption|]. apply C; [assumption|]. apply existsb_version. assumption. }
      destruct (Ha1 w A) as [->|[->| ->]], (Ha1 v A') as [->|[->| ->]]; try reflexivity; discriminate.
    + intros H. exfalso. exact (H w A B).
  - assert (N : forall u, In u a -> ~ In u b).
    { intros u Hu Hu2. pose proof (find_none _ _ E u (proj1 (in_rev _ _) Hu)) as Hf. cbn beta in Hf.
      apply existsb_version in Hu2. congruence. }
    repeat split; try discriminate; auto. intros (A & B & _). exfalso. exact (N v A B).
Qed.

Lemma negotiate_symmetric a b :
  is_strictly_sorted_and_specified a = true -> is_strictly_sorted_and_specified b = true ->
  (length a <= 8)%nat -> (length b <= 8)%nat ->
  latest_common_protocol_version a (Some (encode_versions b)) =
  latest_common_protocol_version b (Some (encode_versions a)).
Proof.
  intros Ha Hb La Lb.
  destruct (latest_common_protocol_version a (Some (encode_versions b))) as [v| |] eqn:E; symmetry.
  - apply (negotiate_spec a b v Ha Hb Lb) in E as (A & B & C).
    apply (negotiate_spec b a v Hb Ha La). repeat split; auto.
  - exfalso. destruct (negotiate_spec a b V0 Ha Hb Lb) as (_ & _ & X). exact (X E).
  - destruct (negotiate_spec a b V0 Ha Hb Lb) as (_ & X & _).
    destruct (negotiate_spec b a V0 Hb Ha La) as (_ & Y & _).
    pose proof (proj1 X E) as E1. apply (proj2 Y). intros w H1 H2. exact (E1 w H2 H1).
Qed.

Lemma negotiate_unsupported_witness :
  exists local, is_strictly_sorted_and_specified local = true /\
    exists v, latest_common_protocol_version local None = Version v /\ ~ In v local.
Proof. exists [V1]. split; [reflexivity|]. exists V0. split; [reflexivity|]. intros [H|[]]. discriminate. Qed.

Lemma unsorted_accepted_witness :
  exists a b v w, network_spec_versions a = Ok a /\
    latest_common_protocol_version a (Some (encode_versions b)) = Version v /\
    In w a /\ In w b /\ version_u8 v < version_u8 w.
Proof. exists [V1; V0], [V0; V1], V0, V1. cbn. repeat split; auto. Qed.
