From Verif Require Import Base Distance_Model Distance_Spec Distance_Proofs Hex_Model Hex_Spec.

Lemma hex_val_spec c d : hex_val c = Some d <-> hex_char c d.
Proof.
  unfold hex_val, hex_char.
  destruct ((48 <=? c) && (c <=? 57)) eqn:E1.
  { split; [intros [= <-]; left; lia|]. intros [[? ->]|[[? ?]|[? ?]]]; [reflexivity|lia|lia]. }
  destruct ((97 <=? c) && (c <=? 102)) eqn:E2.
  { split; [intros [= <-]; right; left; lia|]. intros [[? ?]|[[? ->]|[? ?]]]; [lia|f_equal; lia|lia]. }
  destruct ((65 <=? c) && (c <=? 70)) eqn:E3.
  { split; [intros [= <-]; right; right; lia|]. intros [[? ?]|[[? ?]|[? ->]]]; [lia|lia|f_equal; lia]. }
  split; [discriminate|]. intros [[? ?]|[[? ?]|[? ?]]]; lia.
Qed.

Lemma hex_decode_raw_spec s : forall b, hex_decode_raw s = Ok b <-> hex_spells s b.
Proof.
  induction s as [s IH] using (well_founded_induction (well_founded_ltof _ (@length N))).
  unfold ltof in IH. intros b.
  destruct s as [|c1 [|c2 s]]; cbn [hex_decode_raw].
  - split; [intros [= <-]; constructor|]. intros H; inversion H; reflexivity.
  - split; [discriminate|]. intros H; inversion H.
  - split.
    + destruct (hex_val c1) as [d1|] eqn:E1; [|discriminate].
      destruct (hex_val c2) as [d2|] eqn:E2; [|discriminate].
      destruct (hex_decode_raw s) as [b'| |] eqn:E; cbn [omap]; try discriminate.
      intros [= <-]. apply hex_val_spec in E1, E2. rewrite (N.mul_comm d1).
      constructor; try assumption. apply IH; [cbn; lia|assumption].
    + intros H. inversion H as [|? d1 ? d2 ? b' H1 H2 H3]; subst.
      apply hex_val_spec in H1, H2. rewrite H1, H2.
      apply IH in H3; [|cbn; lia]. rewrite H3. cbn [omap]. rewrite (N.mul_comm d1). reflexivity.
Qed.

Lemma hex_decode_raw_no_panic s : hex_decode_raw s <> Panic.
Proof.
  induction s as [s IH] using (well_founded_induction (well_founded_ltof _ (@length N))).
  unfold ltof in IH. destruct s as [|c1 [|c2 s]]; cbn [hex_decode_raw]; try discriminate.
  destruct (hex_val c1), (hex_val c2); try discriminate.
  specialize (IH s ltac:(cbn; lia)). destruct (hex_decode_raw s); cbn [omap]; congruence.
Qed.

Lemma hex_decode_spec s b :
  hex_decode s = Ok b <->
  exists x h, s = 48 :: x :: h /\ (x = 120 \/ x = 88) /\ hex_spells h b.
Proof.
  unfold hex_decode. destruct s as [|c1 [|c2 s]].
  - split; [discriminate|]. intros (x & h & H & _). discriminate.
  - split; [discriminate|]. intros (x & h & H & _). discriminate.
  - split.
    + destruct ((c1 =? 48) && ((c2 =? 120) || (c2 =? 88))) eqn:E; [|discriminate].
      intros H. apply hex_decode_raw_spec in H. exists c2, s.
      assert (c1 = 48) by lia. subst. repeat split; [lia|assumption].
    + intros (x & h & [= -> -> ->] & Hx & H). apply hex_decode_raw_spec in H.
      destruct Hx as [-> | ->]; exact H.
Qed.

Lemma hex_decode_no_panic s : hex_decode s <> Panic.
Proof.
  unfold hex_decode. destruct s as [|c1 [|c2 s]]; try discriminate.
  destruct (_ && _); [apply hex_decode_raw_no_panic|discriminate].
Qed.

Lemma hex_chars_spells dig data :
  (forall d, d < 16 -> hex_char (dig d) d) -> bytes_ok data -> hex_spells (hex_chars dig data) data.
Proof.
  intros Hd. induction 1 as [|b data Hb H IH]; [constructor|].
  unfold hex_chars in *. cbn [flat_map app]. unfold byte_ok in Hb.
  pose proof (N.div_mod b 16 ltac:(discriminate)) as Hdm.
  pose proof (N.mod_lt b 16 ltac:(discriminate)) as Hm.
  assert (b / 16 < 16) by (apply N.div_lt_upper_bound; [discriminate|exact Hb]).
  replace (b :: data) with (16 * (b / 16) + b mod 16 :: data) by (f_equal; lia).
  constructor; auto.
Qed.

Lemma hex_digit_char d : d < 16 -> hex_char (hex_digit d) d.
Proof. intros H. unfold hex_digit, hex_char. destruct (N.ltb_spec d 10); lia. Qed.

Lemma hex_digit_upper_char d : d < 16 -> hex_char (hex_digit_upper d) d.
Proof. intros H. unfold hex_digit_upper, hex_char. destruct (N.ltb_spec d 10); lia. Qed.

Lemma hex_round_trip data : bytes_ok data ->
  hex_decode (hex_encode data) = Ok data /\ hex_decode (hex_encode_upper data) = Ok data.
Proof.
  intros H. split; apply hex_decode_spec; unfold hex_encode, hex_encode_upper; cbn [app].
  - exists 120, (hex_chars hex_digit data). repeat split; [left; reflexivity|].
    apply hex_chars_spells; [apply hex_digit_char|assumption].
  - exists 120, (hex_chars hex_digit_upper data). repeat split; [left; reflexivity|].
    apply hex_chars_spells; [apply hex_digit_upper_char|assumption].
Qed.

Lemma hex_chars_length dig data : length (hex_chars dig data) = (2 * length data)%nat.
Proof. unfold hex_chars. induction data as [|b data IH]; cbn; [reflexivity|]. rewrite IH. lia. Qed.

(** ** Random ids *)

Lemma skipn_app_exact' {A} (p q : list A) n : n = (length (p ++ q) - length q)%nat -> skipn n (p ++ q) = q.
Proof.
  intros ->. rewrite app_length. replace (length p + length q - length q)%nat with (length p) by lia.
  rewrite skipn_app, skipn_all, Nat.sub_diag. reflexivity.
Qed.

Lemma hex_compact_spec data : bytes_ok data ->
  (blen data <= 8 -> hex_encode_compact data = hex_encode data) /\
  (8 < blen data -> forall a b mid c d, data = a :: b :: mid ++ [c; d] ->
     exists x y, hex_encode_compact data = 48 :: 120 :: x ++ 46 :: 46 :: y /\
       hex_spells x [a; b] /\ hex_spells y [c; d]).
Proof.
  intros Hd. unfold hex_encode_compact. split.
  - intros H. destruct (N.leb_spec (blen data) 8); [reflexivity|lia].
  - intros H a b mid c d E. destruct (N.leb_spec (blen data) 8); [lia|].
    exists (hex_chars hex_digit [a; b]), (hex_chars hex_digit [c; d]).
    assert (H2 : bytes_ok [a; b] /\ bytes_ok [c; d]).
    { rewrite E in Hd. change (bytes_ok ([a; b] ++ mid ++ [c; d])) in Hd. apply bytes_ok_app in Hd as [X Y].
      apply bytes_ok_app in Y as [_ Y]. split; assumption. }
    split; [|split; apply hex_chars_spells; try apply hex_digit_char; tauto].
    assert (Ec : hex_chars hex_digit data = hex_chars hex_digit [a; b] ++ hex_chars hex_digit mid ++ hex_chars hex_digit [c; d]).
    { rewrite E. unfold hex_chars. change (a :: b :: mid ++ [c; d]) with ([a; b] ++ mid ++ [c; d]).
      rewrite !flat_map_app. reflexivity. }
    rewrite Ec, app_assoc. rewrite (skipn_app_exact' (hex_chars hex_digit [a; b] ++ hex_chars hex_digit mid) (hex_chars hex_digit [c; d])).
    + reflexivity.
    + rewrite !app_length, !hex_chars_length. cbn [length]. lia.
Qed.

Lemma choice_bracket lz c : lz <= 255 -> random_choice_ok lz c ->
  2 ^ (7 - lz mod 8) <= c < 2 ^ (8 - lz mod 8).
Proof.
  intros Hlz. unfold random_choice_ok.
  pose proof (N.mod_lt lz 8 ltac:(discriminate)) as Hm. set (k := lz mod 8) in *.
  clearbody k. destruct (N.eqb_spec k 0) as [->|Hk].
  - change (2 ^ (7 - 0)) with 128. change (2 ^ (8 - 0)) with 256. lia.
  - assert (H : k = 1 \/ k = 2 \/ k = 3 \/ k = 4 \/ k = 5 \/ k = 6 \/ k = 7) by lia.
    destruct H as [->|[->|[->|[->|[->|[->| ->]]]]]]; intros H; split; try (apply H).
Qed.

Lemma be_num_repeat0 n l : be_num (repeat 0 n ++ l) = be_num l.
Proof.
  induction n as [|n IH]; [reflexivity|]. cbn [repeat app]. rewrite be_num_cons, IH. lia.
Qed.

Lemma random_array_bracket lz rnd c :
  lz <= 255 -> length rnd = 32%nat -> bytes_ok rnd -> random_choice_ok lz c ->
  let r := random_32byte_array lz rnd c in
  id32 r /\ 2 ^ (255 - lz) <= be_num r < 2 ^ (256 - lz).
Proof.
  intros Hlz Hl Hok Hc r. pose proof (choice_bracket lz c Hlz Hc) as [B1 B2].
  pose proof (N.mod_lt lz 8 ltac:(discriminate)) as Hm.
  pose proof (N.div_mod lz 8 ltac:(discriminate)) as Hdm.
  set (k := lz mod 8) in *. set (q := lz / 8) in *.
  assert (Hq : q <= 31) by (clearbody q k; lia).
  assert (Hc256 : c < 256).
  { eapply N.lt_le_trans; [exact B2|]. change 256 with (2 ^ 8). apply N.pow_le_mono_r; lia. }
  assert (Hls : length (skipn (S (N.to_nat q)) rnd) = (31 - N.to_nat q)%nat) by (rewrite skipn_length; lia).
  assert (Hid : id32 r).
  { split.
    - unfold r, random_32byte_array. rewrite app_length, repeat_length. fold q. cbn [length]. rewrite Hls. lia.
    - unfold r, random_32byte_array. apply bytes_ok_app. split.
      + apply Forall_forall. intros x Hx. apply repeat_spec in Hx. subst x. reflexivity.
      + apply bytes_ok_cons. split; [assumption|]. apply bytes_ok_skipn, Hok. }
  split; [assumption|].
  unfold r, random_32byte_array. fold q. rewrite be_num_repeat0, be_num_cons, Hls.
  pose proof (be_num_bound _ (bytes_ok_skipn (S (N.to_nat q)) rnd Hok)) as Hb.
  rewrite Hls in Hb. rewrite pow256_pow2 in *.
  set (t := be_num (skipn (S (N.to_nat q)) rnd)) in *.
  set (e := 8 * N.of_nat (31 - N.to_nat q)) in *.
  assert (He : e = 248 - 8 * q) by (unfold e; lia).
  replace (255 - lz) with ((7 - k) + e) by lia.
  replace (256 - lz) with ((8 - k) + e) by lia.
  rewrite !N.pow_add_r. set (P := 2 ^ e) in *.
  assert (A1 : 2 ^ (7 - k) * P <= c * P) by (apply N.mul_le_mono_r, B1).
  assert (A2 : (c + 1) * P <= 2 ^ (8 - k) * P) by (apply N.mul_le_mono_r; lia).
  split; lia.
Qed.

Lemma random_node_id_log2 idx local rnd c :
  idx <= 255 -> id32 local -> length rnd = 32%nat -> bytes_ok rnd ->
  random_choice_ok (255 - idx) c ->
  let r := generate_random_node_id idx local rnd c in
  id32 r /\ log2 (distance local r) = Some (idx + 1).
Proof.
  intros Hi Hloc Hl Hok Hc r.
  destruct (random_array_bracket (255 - idx) rnd c) as [Hid [B1 B2]]; try assumption; [lia|].
  set (d := random_32byte_array (255 - idx) rnd c) in *.
  assert (Hr : id32 r) by apply id32_be_bytes.
  split; [assumption|].
  assert (Hdist : distance local r = be_num d).
  { rewrite distance_lxor by assumption. unfold r, generate_random_node_id. fold d.
    unfold big_endian. rewrite be_num_be_bytes_id by (apply distance_bound; assumption).
    rewrite distance_lxor by assumption.
    rewrite <- N.lxor_assoc, N.lxor_nilpotent. apply N.lxor_0_l. }
  rewrite Hdist.
  replace (255 - (255 - idx)) with idx in B1 by lia.
  replace (256 - (255 - idx)) with (idx + 1) in B2 by lia.
  apply log2_spec.
  - apply id32_bound, Hid.
  - replace (idx + 1 - 1) with idx by lia. repeat split; try lia; assumption.
Qed.

(** ** Evenly spread ids *)

Definition top_bits_ok (u i b : N) : bool :=
  let mask := if u <? 8 then N.shiftr 255 u else 0 in
  let sh := 8 - u in
  let top := if sh <? 8 then N.shiftl i sh mod 256 else 0 in
  let b' := N.lor (N.land b mask) top in
  (b' <? 256) && (b' / 2 ^ (8 - u) =? i) && (b' mod 2 ^ (8 - u) =? b mod 2 ^ (8 - u)).

Lemma top_bits u i b : u <= 8 -> i < 2 ^ u -> b < 256 -> top_bits_ok u i b = true.
Proof.
  intros Hu Hi Hb.
  assert (HR : 2 ^ (8 - u) <> 0) by (apply N.pow_nonzero; discriminate).
  assert (H256 : 2 ^ (8 - u) * 2 ^ u = 256).
  { rewrite <- N.pow_add_r. replace (8 - u + u) with 8 by lia. reflexivity. }
  assert (Em : (if u <? 8 then N.shiftr 255 u else 0) = N.ones (8 - u)).
  { assert (Hin : In u [0;1;2;3;4;5;6;7;8]) by (cbn; lia).
    repeat (destruct Hin as [<- | Hin]; [vm_compute; reflexivity|]). destruct Hin. }
  assert (Hlt : i * 2 ^ (8 - u) < 256).
  { rewrite <- H256, (N.mul_comm (2 ^ (8 - u))). apply N.mul_lt_mono_pos_r; [lia|assumption]. }
  assert (Et : (if 8 - u <? 8 then N.shiftl i (8 - u) mod 256 else 0) = N.shiftl i (8 - u)).
  { destruct (N.ltb_spec (8 - u) 8).
    - apply N.mod_small. rewrite N.shiftl_mul_pow2. assumption.
    - replace u with 0 in * by lia. change (2 ^ 0) with 1 in Hi. replace i with 0 by lia. reflexivity. }
  unfold top_bits_ok. rewrite Em, Et, N.land_ones.
  assert (Hm : b mod 2 ^ (8 - u) < 2 ^ (8 - u)) by (apply N.mod_lt; assumption).
  rewrite lor_disjoint_add by assumption. set (R := 2 ^ (8 - u)) in *. clearbody R.
  rewrite N.div_add, (N.div_small (b mod R)), N.mod_add, N.mod_mod by assumption.
  rewrite !N.eqb_refl, !andb_true_r. apply N.ltb_lt.
  assert ((i + 1) * R <= 2 ^ u * R) by (apply N.mul_le_mono_r; lia). lia.
Qed.

Lemma random_ids_spec u rnds :
  u <= 8 -> (forall i, i < 2 ^ u -> id32 (rnds i)) ->
  exists ids, generate_random_node_ids u rnds = Ok ids /\
    blen ids = 2 ^ u /\
    (forall i, i < 2 ^ u -> exists x,
       nth_error ids (N.to_nat i) = Some x /\ id32 x /\
       be_num x / 2 ^ (256 - u) = i /\ be_num x mod 2 ^ (256 - u) = be_num (rnds i) mod 2 ^ (256 - u)).
Proof.
  intros Hu Hr. unfold generate_random_node_ids. destruct (N.ltb_spec 8 u); [lia|].
  eexists. split; [reflexivity|]. split.
  { unfold blen. rewrite map_length, seq_length, N2Nat.id. reflexivity. }
  intros i Hi. exists (set_top_bits u i (rnds i)).
  specialize (Hr i Hi). destruct (rnds i) as [|b rest] eqn:E; [destruct Hr; discriminate|].
  destruct Hr as [Hl Hok]. injection Hl as Hl. apply bytes_ok_cons in Hok as [Hb Hok].
  pose proof (top_bits u i b Hu Hi Hb) as Ht. unfold top_bits_ok in Ht.
  split.
  { erewrite map_nth_error; [|rewrite (nth_error_nth' _ 0%nat) by (rewrite seq_length; lia);
      rewrite seq_nth by lia; reflexivity].
    cbn [plus]. rewrite N2Nat.id, E. reflexivity. }
  cbn [set_top_bits].
  set (b' := N.lor _ _) in *. clearbody b'.
  apply andb_prop in Ht as [Ht T3]. apply andb_prop in Ht as [T1 T2].
  apply N.ltb_lt in T1. apply N.eqb_eq in T2, T3.
  split.
  { split; [cbn; rewrite Hl; reflexivity|]. apply bytes_ok_cons. auto. }
  rewrite !be_num_cons, Hl.
  pose proof (be_num_bound rest Hok) as Hbd. rewrite Hl in Hbd.
  change (256 ^ N.of_nat 31) with (2 ^ 248) in *.
  set (t := be_num rest) in *. clearbody t.
  replace (256 - u) with ((8 - u) + 248) by (clear - Hu; lia). rewrite N.pow_add_r.
  set (Q := 2 ^ 248) in *. set (R := 2 ^ (8 - u)) in *.
  assert (HQ : Q <> 0) by (unfold Q; apply N.pow_nonzero; discriminate).
  assert (HR : R <> 0) by (unfold R; apply N.pow_nonzero; discriminate).
  assert (D : forall c, (c * Q + t) / (R * Q) = c / R).
  { intros c. rewrite (N.mul_comm R), <- N.div_div by assumption.
    rewrite N.div_add_l by assumption. rewrite (N.div_small t) by assumption. rewrite N.add_0_r. reflexivity. }
  assert (M : forall c, (c * Q + t) mod (R * Q) = (c mod R) * Q + t).
  { intros c. rewrite (N.mul_comm R Q), N.mod_mul_r by assumption.
    rewrite N.div_add_l by assumption. rewrite (N.div_small t) by assumption. rewrite N.add_0_r.
    replace ((c * Q + t) mod Q) with t
      by (rewrite N.add_comm, N.mod_add by assumption; symmetry; apply N.mod_small; assumption).
    rewrite (N.mul_comm Q), N.add_comm. reflexivity. }
  rewrite D, !M, T2, T3. split; reflexivity.
Qed.

Lemma random_ids_panic u rnds : 8 < u -> generate_random_node_ids u rnds = Panic.
Proof. intros H. unfold generate_random_node_ids. destruct (N.ltb_spec 8 u); [reflexivity|lia]. Qed.
