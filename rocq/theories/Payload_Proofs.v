From Verif Require Import Base Payload_Model Payload_Spec.

Lemma land127 b : N.land b 127 = b mod 128.
Proof. change 127 with (N.ones 7). rewrite N.land_ones. reflexivity. Qed.

Lemma land128 b : b < 256 -> (N.land b 128 =? 0) = (b <? 128).
Proof.
  intros Hb. apply eqb_prop.
  revert b Hb. apply byte_sweep. vm_compute. reflexivity.
Qed.

Lemma lor128 x : x < 128 -> N.lor x 128 = x + 128.
Proof.
  intros H. change 128 with (N.shiftl 1 7) at 1. rewrite lor_disjoint_add by exact H. reflexivity.
Qed.

Lemma pow128_S k : 2 ^ (7 * (k + 1)) = 128 * 2 ^ (7 * k).
Proof. replace (7 * (k + 1)) with (7 + 7 * k) by lia. rewrite N.pow_add_r. reflexivity. Qed.

(** Reading a prefix followed by anything. [k] digits have been read before. *)
Lemma leb_read_complete p : forall k r rest,
  bytes_ok p -> leb_shape p -> r < 2 ^ (7 * k) ->
  k + blen p <= 10 -> leb_value p * 2 ^ (7 * k) < 2 ^ 64 ->
  leb_read (7 * k) r (p ++ rest) = Some (r + leb_value p * 2 ^ (7 * k), rest).
Proof.
  induction p as [|b p IH]; intros k r rest Hok Hs Hr Hlen Hv; [contradiction|].
  apply bytes_ok_cons in Hok as [Hb Hok]. rewrite blen_cons in Hlen.
  cbn [app leb_read]. rewrite land127.
  assert (Hg : (7 * k =? 63) && negb (b =? 0) && negb (b =? 1) = false).
  { destruct (N.eqb_spec (7 * k) 63) as [Hk|]; [|reflexivity].
    assert (k = 9) by lia. subst k.
    assert (p = []) as -> by (destruct p; [reflexivity|rewrite blen_cons in Hlen; lia]).
    cbn [leb_shape leb_value] in *. change (2 ^ (7 * 9)) with 9223372036854775808 in Hv.
    change (2 ^ 64) with 18446744073709551616 in Hv.
    rewrite N.mod_small in Hv by assumption.
    cbn. apply andb_false_iff. lia. }
  rewrite Hg. rewrite land128 by assumption.
  rewrite lor_disjoint_add by assumption.
  destruct p as [|b' p'].
  - cbn [leb_shape leb_value] in *. destruct (N.ltb_spec b 128); [|lia].
    cbn [app]. f_equal. f_equal. rewrite N.mul_0_r, N.add_0_r. reflexivity.
  - destruct Hs as [Hb1 Hs]. destruct (N.ltb_spec b 128); [lia|].
    replace (7 * k + 7) with (7 * (k + 1)) by lia.
    cbn [leb_value] in Hv |- *. change (b' mod 128 + 128 * leb_value p') with (leb_value (b' :: p')) in *.
    pose proof (N.mod_lt b 128 ltac:(discriminate)) as Hm.
    rewrite IH; [| assumption | assumption | | lia |].
    + rewrite pow128_S. f_equal. f_equal. nia.
    + rewrite pow128_S. nia.
    + rewrite pow128_S. nia.
Qed.

Lemma leb_read_sound l : forall k r v rest,
  bytes_ok l -> r < 2 ^ (7 * k) -> k <= 9 ->
  leb_read (7 * k) r l = Some (v, rest) ->
  exists p, l = p ++ rest /\ leb_shape p /\ k + blen p <= 10 /\
    v = r + leb_value p * 2 ^ (7 * k).
Proof.
  induction l as [|b l IH]; intros k r v rest Hok Hr Hk H; [discriminate|].
  apply bytes_ok_cons in Hok as [Hb Hok]. cbn [leb_read] in H.
  destruct ((7 * k =? 63) && negb (b =? 0) && negb (b =? 1)) eqn:Hg; [discriminate|].
  rewrite land127, land128, lor_disjoint_add in H by assumption.
  pose proof (N.mod_lt b 128 ltac:(discriminate)) as Hm.
  destruct (N.ltb_spec b 128) as [Hlt|Hge].
  - injection H as <- <-. exists [b]. cbn [app leb_shape leb_value]. rewrite blen_cons, blen_nil.
    repeat split; try lia.
  - replace (7 * k + 7) with (7 * (k + 1)) in H by lia.
    assert (k <> 9).
    { intros ->. change (7 * 9 =? 63) with true in Hg. cbn in Hg.
      apply andb_false_iff in Hg. lia. }
    apply IH in H; [|assumption| |lia].
    + destruct H as (p & -> & Hs & Hl & ->). exists (b :: p). cbn [app].
      split; [reflexivity|]. split; [destruct p; [contradiction|split; assumption]|].
      split; [rewrite blen_cons; lia|]. cbn [leb_value]. rewrite pow128_S. nia.
    + rewrite pow128_S. nia.
Qed.

Lemma read_varint_spec l v rest : bytes_ok l ->
  read_varint l = Some (v, rest) <-> exists p, l = p ++ rest /\ length_prefix p v.
Proof.
  intros Hok. unfold read_varint, length_prefix, u32_max. split.
  - destruct (leb_read 0 0 l) as [[v' rest']|] eqn:E; [|discriminate].
    destruct (N.leb_spec v' (2^32-1)); [|discriminate]. intros [= -> ->].
    apply (leb_read_sound l 0 0) in E; [|assumption|vm_compute; reflexivity|lia].
    destruct E as (p & -> & Hs & Hl & ->). exists p. unfold blen in Hl.
    change (2 ^ (7 * 0)) with 1 in *. repeat split; [assumption|lia|lia|lia].
  - intros (p & -> & Hs & Hl & Hv & Hb).
    apply bytes_ok_app in Hok as [Hp _].
    pose proof (leb_read_complete p 0 0 rest Hp Hs) as HR.
    change (2 ^ (7 * 0)) with 1 in HR. change (7 * 0) with 0 in HR.
    rewrite HR; [| lia | unfold blen; lia | ].
    + rewrite N.add_0_l, N.mul_1_r, Hv. destruct (N.leb_spec v (2^32-1)); [reflexivity|lia].
    + rewrite N.mul_1_r. subst v. eapply N.lt_trans; [exact Hb|]. reflexivity.
Qed.

Lemma leb_shape_nonempty p : leb_shape p -> p <> [].
Proof. destruct p; [contradiction|discriminate]. Qed.

Lemma next_item_spec l it rest : bytes_ok l ->
  decode_next_content_item l = Ok (Some (it, rest)) <->
  exists p, l = p ++ it ++ rest /\ length_prefix p (blen it).
Proof.
  intros Hok. unfold decode_next_content_item. split.
  - destruct l as [|b l0] eqn:El; [discriminate|]. rewrite <- El in *. clear El b l0.
    destruct (read_varint l) as [[n r]|] eqn:E; [|discriminate].
    apply read_varint_spec in E; [|assumption].
    destruct E as (p & -> & Hp).
    destruct (N.ltb_spec (blen r) n) as [|Hge]; [discriminate|].
    intros [= <- <-]. exists p. rewrite firstn_skipn. split; [reflexivity|].
    replace (blen (firstn (N.to_nat n) r)) with n; [assumption|].
    unfold blen in *. rewrite firstn_length. lia.
  - intros (p & -> & Hp).
    assert (Hne : p <> []) by (apply leb_shape_nonempty, Hp).
    assert (E : read_varint (p ++ it ++ rest) = Some (blen it, it ++ rest))
      by (apply read_varint_spec; [assumption|exists p; auto]).
    destruct (p ++ it ++ rest) eqn:El; [destruct p; [congruence|discriminate]|].
    rewrite E. rewrite blen_app.
    destruct (N.ltb_spec (blen it + blen rest) (blen it)); [lia|].
    unfold blen. rewrite Nat2N.id, firstn_app_exact, skipn_app_exact. reflexivity.
Qed.

Lemma next_item_end l : decode_next_content_item l = Ok None <-> l = [].
Proof.
  unfold decode_next_content_item. destruct l; [tauto|].
  split; [|discriminate]. destruct (read_varint _) as [[? ?]|]; [|discriminate].
  destruct (_ <? _); discriminate.
Qed.

Lemma next_item_no_panic l : decode_next_content_item l <> Panic.
Proof.
  unfold decode_next_content_item. destruct l; [discriminate|].
  destruct (read_varint _) as [[? ?]|]; [|discriminate]. destruct (_ <? _); discriminate.
Qed.

Lemma decode_loop_spec fuel : forall l items, bytes_ok l -> (length l < fuel)%nat ->
  decode_content_payload_loop fuel l = Ok items <-> payload_of items l.
Proof.
  induction fuel as [|f IH]; intros l items Hok Hf; [lia|].
  cbn [decode_content_payload_loop]. split.
  - destruct (decode_next_content_item l) as [[[it rest]|]| |] eqn:E; cbn [obind]; try discriminate.
    + pose proof (proj1 (next_item_spec l it rest Hok) E) as (p & -> & Hp).
      apply bytes_ok_app in Hok as [Hokp Hok]. apply bytes_ok_app in Hok as [Hoki Hokr].
      assert (Hne : p <> []) by (apply leb_shape_nonempty, Hp).
      assert (Hl : (length rest < f)%nat).
      { rewrite !app_length in Hf. destruct p; [congruence|]. cbn [length] in Hf. lia. }
      destruct (decode_content_payload_loop f rest) as [tl| |] eqn:E2; cbn [omap]; try discriminate.
      intros [= <-]. constructor; [assumption|]. apply IH; assumption.
    + apply next_item_end in E. subst. intros [= <-]. constructor.
  - intros H. destruct H as [|it items p tl Hp Ht]; [reflexivity|].
    assert (E : decode_next_content_item (p ++ it ++ tl) = Ok (Some (it, tl)))
      by (apply next_item_spec; [assumption|exists p; auto]).
    rewrite E. cbn [obind].
    apply bytes_ok_app in Hok as [Hokp Hok]. apply bytes_ok_app in Hok as [Hoki Hokr].
    assert (Hne : p <> []) by (apply leb_shape_nonempty, Hp).
    assert (Hl : (length tl < f)%nat).
    { rewrite !app_length in Hf. destruct p; [congruence|]. cbn [length] in Hf. lia. }
    apply IH in Ht; [|assumption|assumption]. rewrite Ht. reflexivity.
Qed.

Lemma decode_loop_no_panic fuel : forall l, decode_content_payload_loop fuel l <> Panic.
Proof.
  induction fuel as [|f IH]; intros l; [discriminate|]. cbn [decode_content_payload_loop].
  pose proof (next_item_no_panic l) as Hn.
  destruct (decode_next_content_item l) as [[[it rest]|]| |]; cbn [obind]; try congruence.
  specialize (IH rest). destruct (decode_content_payload_loop f rest); cbn [omap]; congruence.
Qed.

Lemma decode_payload_iff l items : bytes_ok l ->
  decode_content_payload l = Ok items <-> payload_of items l.
Proof. intros H. apply decode_loop_spec; [assumption|lia]. Qed.

Lemma decode_total l : decode_content_payload l <> Panic /\ decode_single_content_payload l <> Panic.
Proof.
  split; [apply decode_loop_no_panic|]. unfold decode_single_content_payload.
  pose proof (next_item_no_panic l) as Hn.
  destruct (decode_next_content_item l) as [[[it [|? ?]]|]| |]; cbn [obind]; congruence.
Qed.

Lemma decode_single_iff l it : bytes_ok l ->
  decode_single_content_payload l = Ok it <-> payload_of [it] l.
Proof.
  intros Hok. unfold decode_single_content_payload. split.
  - destruct (decode_next_content_item l) as [[[it' rest]|]| |] eqn:E; cbn [obind]; try discriminate.
    destruct rest; [|discriminate]. intros [= ->].
    apply next_item_spec in E; [|assumption]. destruct E as (p & -> & Hp).
    constructor; [assumption|constructor].
  - intros H. inversion H as [|? ? p tl Hp Ht]; subst. inversion Ht; subst.
    assert (E : decode_next_content_item (p ++ it ++ []) = Ok (Some (it, [])))
      by (apply next_item_spec; [assumption|exists p; auto]).
    rewrite E. reflexivity.
Qed.

(** ** Encoding *)

Lemma shiftr7 v : N.shiftr v 7 = v / 128.
Proof. rewrite N.shiftr_div_pow2. reflexivity. Qed.

Lemma leb_write_spec fuel : forall v, v < 2 ^ (7 * N.of_nat fuel) -> fuel <> O ->
  exists p, leb_write fuel v = Some p /\ bytes_ok p /\ leb_shape p /\ (length p <= fuel)%nat /\ leb_value p = v.
Proof.
  induction fuel as [|f IH]; intros v Hv Hf; [congruence|].
  cbn [leb_write]. rewrite land127, shiftr7.
  pose proof (N.mod_lt v 128 ltac:(discriminate)) as Hm.
  pose proof (N.div_mod v 128 ltac:(discriminate)) as Hdm.
  destruct (N.eqb_spec (v / 128) 0) as [Hz|Hz].
  - exists [v mod 128]. split; [reflexivity|]. split; [constructor; [unfold byte_ok; lia|constructor]|].
    split; [cbn; lia|]. split; [cbn; lia|]. cbn [leb_value]. rewrite N.mod_mod by discriminate. lia.
  - destruct f as [|f'].
    { change (2 ^ (7 * N.of_nat 1)) with 128 in Hv. rewrite N.div_small in Hz by assumption. congruence. }
    destruct (IH (v / 128)) as (p & -> & Hok & Hs & Hl & Hp); [|congruence|].
    + rewrite Nat2N.inj_succ, <- N.add_1_r, pow128_S in Hv.
      apply N.div_lt_upper_bound; [discriminate|exact Hv].
    + rewrite lor128 by assumption.
      exists (v mod 128 + 128 :: p). split; [reflexivity|].
      split; [apply bytes_ok_cons; split; [lia|assumption]|].
      split; [destruct p; [contradiction|split; [lia|assumption]]|].
      split; [cbn [length]; lia|]. cbn [leb_value]. rewrite Hp.
      rewrite <- N.add_mod_idemp_r, N.mod_same, N.add_0_r, N.mod_mod by discriminate. lia.
Qed.

Lemma encode_payload_ok items :
  Forall (fun it => bytes_ok it /\ blen it <= u32_max) items ->
  exists bs, encode_content_payload items = Ok bs /\ bytes_ok bs /\ payload_of items bs.
Proof.
  induction 1 as [|it items [Hok Hl] H (bs & IH1 & IH2 & IH3)].
  - exists []. repeat constructor.
  - cbn [encode_content_payload]. destruct (N.ltb_spec u32_max (blen it)) as [|_]; [lia|].
    unfold u32_max in Hl.
    destruct (leb_write_spec 10 (blen it)) as (p & -> & Hp1 & Hp2 & Hp3 & Hp4); [|congruence|].
    { eapply N.le_lt_trans; [exact Hl|]. reflexivity. }
    rewrite IH1. cbn [omap]. exists (p ++ it ++ bs). split; [reflexivity|].
    split; [rewrite !bytes_ok_app; auto|].
    constructor; [|assumption]. repeat split; try assumption. lia.
Qed.

Lemma encode_payload_fails items :
  encode_content_payload items <> Panic /\
  (encode_content_payload items = Err <-> Exists (fun it => u32_max < blen it) items).
Proof.
  induction items as [|it items [IHp IH]]; cbn [encode_content_payload].
  - split; [discriminate|]. split; [discriminate|]. intros H; inversion H.
  - destruct (N.ltb_spec u32_max (blen it)) as [Hlt|Hge].
    + split; [discriminate|]. split; [intros _; constructor; assumption|reflexivity].
    + unfold u32_max in Hge.
      destruct (leb_write_spec 10 (blen it)) as (p & -> & _); [|congruence|].
      { eapply N.le_lt_trans; [exact Hge|]. reflexivity. }
      destruct (encode_content_payload items) as [tl| |]; cbn [omap]; try congruence.
      * split; [discriminate|]. split; [discriminate|]. intros H. inversion H; subst; [unfold u32_max in *; lia|].
        assert (Ok tl = Err) by (apply IH; assumption). discriminate.
      * split; [discriminate|]. split; [|reflexivity]. intros _. right. apply IH. reflexivity.
Qed.

Lemma payload_round_trip items :
  Forall (fun it => bytes_ok it /\ blen it <= u32_max) items ->
  exists bs, encode_content_payload items = Ok bs /\ bytes_ok bs /\ decode_content_payload bs = Ok items.
Proof.
  intros H. destruct (encode_payload_ok items H) as (bs & H1 & H2 & H3).
  exists bs. split; [assumption|]. split; [assumption|]. apply decode_payload_iff; assumption.
Qed.

Lemma payload_single_round_trip it :
  bytes_ok it -> blen it <= u32_max ->
  exists bs, encode_content_payload [it] = Ok bs /\ decode_single_content_payload bs = Ok it.
Proof.
  intros H1 H2. destruct (encode_payload_ok [it]) as (bs & E1 & E2 & E3); [constructor; auto|].
  exists bs. split; [assumption|]. apply decode_single_iff; assumption.
Qed.

Lemma allocation_witness : exists l : bytes, bytes_ok l /\ blen l = 5 /\
    next_item_allocation l = u32_max /\ decode_content_payload l = Err.
Proof.
  exists [255; 255; 255; 255; 15]. split; [|vm_compute; repeat split].
  repeat constructor.
Qed.

Lemma allocation_bounded l : bytes_ok l ->
    next_item_allocation l <= u32_max /\
    (forall it rest, decode_next_content_item l = Ok (Some (it, rest)) ->
       next_item_allocation l = blen it /\ blen it + 1 <= blen l).
Proof.
  intros Hok. split.
  - unfold next_item_allocation, read_varint. destruct l; [vm_compute; discriminate|].
    destruct (leb_read 0 0 (n :: l)) as [[v r]|]; [|vm_compute; discriminate].
    destruct (N.leb_spec v u32_max); [assumption|vm_compute; discriminate].
  - intros it rest H.
    apply next_item_spec in H; [|assumption]. destruct H as (p & -> & Hp).
    assert (E : read_varint (p ++ it ++ rest) = Some (blen it, it ++ rest))
      by (apply read_varint_spec; [assumption|exists p; auto]).
    assert (Hne : p <> []) by (apply leb_shape_nonempty, Hp).
    destruct p as [|b p]; [congruence|]. unfold next_item_allocation. cbn [app] in *.
    rewrite E. split; [reflexivity|]. rewrite blen_cons, !blen_app. lia.
Qed.
