(** The two directions of the SSZ layout: decoding inverts encoding, and whatever decodes is
    exactly the encoding of the result. *)
From Verif Require Import Base Ssz_Model.

Lemma slice_ok b from to s : slice b from to = Ok s -> from <= to /\ to <= blen b /\
  s = firstn (N.to_nat (to - from)) (skipn (N.to_nat from) b).
Proof.
  unfold slice. destruct ((from <=? to) && (to <=? blen b)) eqn:E; [|discriminate].
  intros [= <-]. apply andb_true_iff in E as [E1 E2]. apply N.leb_le in E1, E2. auto.
Qed.
Lemma slice_get_ok b from to s : slice_get b from to = Ok s -> from <= to /\ to <= blen b /\
  s = firstn (N.to_nat (to - from)) (skipn (N.to_nat from) b).
Proof.
  unfold slice_get. destruct ((from <=? to) && (to <=? blen b)) eqn:E; [|discriminate].
  intros [= <-]. apply andb_true_iff in E as [E1 E2]. apply N.leb_le in E1, E2. auto.
Qed.

(** A slice of [x ++ y ++ z] that is exactly [y]. *)
Lemma slice_app x y z from to :
  from = blen x -> to = blen x + blen y -> slice (x ++ y ++ z) from to = Ok y.
Proof.
  intros -> ->. unfold slice. rewrite !blen_app.
  replace (_ && _) with true by (symmetry; apply andb_true_iff; split; apply N.leb_le; lia).
  f_equal. replace (N.to_nat (blen x)) with (length x) by (unfold blen; lia).
  rewrite skipn_app_exact. apply firstn_app_len. unfold blen. lia.
Qed.
Lemma slice_get_app x y z from to :
  from = blen x -> to = blen x + blen y -> slice_get (x ++ y ++ z) from to = Ok y.
Proof.
  intros H1 H2. pose proof (slice_app x y z from to H1 H2) as S. unfold slice, slice_get in *.
  destruct (_ && _); [assumption|discriminate].
Qed.

Lemma skipn_add {A} n m (l : list A) : skipn n (skipn m l) = skipn (m + n) l.
Proof.
  revert l. induction m as [|m IH]; intros l; [reflexivity|]. destruct l as [|x l]; cbn; [apply skipn_nil|apply IH].
Qed.

(** Slices that are adjacent cover what lies between. *)
Lemma split_at (b : bytes) from mid to :
  from <= mid -> mid <= to -> to <= blen b ->
  firstn (N.to_nat (to - from)) (skipn (N.to_nat from) b) =
  firstn (N.to_nat (mid - from)) (skipn (N.to_nat from) b) ++
  firstn (N.to_nat (to - mid)) (skipn (N.to_nat mid) b).
Proof.
  intros H1 H2 H3. unfold blen in H3.
  set (c := skipn (N.to_nat from) b).
  replace (skipn (N.to_nat mid) b) with (skipn (N.to_nat (mid - from)) c).
  2:{ unfold c. rewrite skipn_add. f_equal. lia. }
  rewrite <- (firstn_skipn (N.to_nat (mid - from)) (firstn (N.to_nat (to - from)) c)).
  rewrite firstn_firstn. replace (Nat.min (N.to_nat (mid - from)) (N.to_nat (to - from))) with (N.to_nat (mid - from)) by lia.
  f_equal. rewrite skipn_firstn_comm. f_equal. lia.
Qed.

Lemma slice_len (b : bytes) from to : from <= to -> to <= blen b ->
  blen (firstn (N.to_nat (to - from)) (skipn (N.to_nat from) b)) = to - from.
Proof. intros. unfold blen in *. rewrite firstn_length, skipn_length. lia. Qed.

Lemma slice_all (b : bytes) from : from <= blen b ->
  firstn (N.to_nat (blen b - from)) (skipn (N.to_nat from) b) = skipn (N.to_nat from) b.
Proof. intros H. apply firstn_all2. rewrite skipn_length. unfold blen. lia. Qed.

Lemma le4_len o : length (le_bytes 4 o) = 4%nat.
Proof. apply le_bytes_length. Qed.
Lemma le4_num o : o < 2 ^ 32 -> le_num (le_bytes 4 o) = o.
Proof. intros H. apply le_num_le_bytes_id. exact H. Qed.
Lemma read_offset_app o r : o < 2 ^ 32 -> read_offset (le_bytes 4 o ++ r) = Ok o.
Proof.
  intros H. unfold read_offset. rewrite blen_app. unfold blen at 1. rewrite le4_len.
  destruct (_ <? 4) eqn:E; [apply N.ltb_lt in E; lia|]. rewrite firstn_app_len by (symmetry; apply le4_len).
  rewrite le4_num by assumption. reflexivity.
Qed.
Lemma read_offset_inv b o : bytes_ok b -> read_offset b = Ok o ->
  4 <= blen b /\ o < 2 ^ 32 /\ firstn 4 b = le_bytes 4 o.
Proof.
  intros Hb. unfold read_offset. destruct (blen b <? 4) eqn:E; [discriminate|]. apply N.ltb_ge in E. intros [= <-].
  assert (L : length (firstn 4 b) = 4%nat) by (rewrite firstn_length; unfold blen in E; lia).
  pose proof (bytes_ok_firstn 4 b Hb) as Hf. split; [assumption|]. split.
  - pose proof (le_num_bound _ Hf) as B. rewrite L in B. exact B.
  - rewrite <- L at 2. symmetry. apply le_bytes_le_num, Hf.
Qed.

Lemma heads_blen off ps : blen (heads off ps) = heads_len ps.
Proof.
  revert off. induction ps as [|[b|b] ps IH]; intros off; cbn [heads heads_len part_head_len]; [reflexivity| |];
    rewrite blen_app, IH; [reflexivity|]. unfold blen at 1. rewrite le4_len. lia.
Qed.
Lemma encode_container_len ps : blen (encode_container ps) = heads_len ps + blen (tails ps).
Proof. unfold encode_container. rewrite blen_app, heads_blen. reflexivity. Qed.

(** The shape of the fields of a list of parts. *)
Definition field (p : part) : option N := match p with PFix b => Some (blen b) | PVar _ => None end.
Fixpoint slots (off : N) (ps : list part) : list (bytes + N) :=
  match ps with
  | [] => []
  | PFix b :: r => inl b :: slots off r
  | PVar b :: r => inr off :: slots (off + blen b) r
  end.

Lemma first_offset_slots off ps :
  first_offset (slots off ps) = if existsb (fun p => match p with PVar _ => true | _ => false end) ps
                                then Some off else None.
Proof.
  revert off. induction ps as [|[b|b] ps IH]; intros off; cbn; [reflexivity|apply IH|reflexivity].
Qed.
Lemma no_var_tails ps :
  existsb (fun p => match p with PVar _ => true | _ => false end) ps = false -> tails ps = [].
Proof. induction ps as [|[b|b] ps IH]; cbn; [reflexivity|exact IH|discriminate]. Qed.

Lemma register_ok ps : forall x off last rest,
  (match last with Some l => l <= off | None => True end) ->
  off + blen (tails ps) <= blen x + heads_len ps + blen rest ->
  off + blen (tails ps) < 2 ^ 32 ->
  register (x ++ heads off ps ++ rest) (blen x) last (map field ps) = Ok (blen x + heads_len ps, slots off ps).
Proof.
  induction ps as [|[b|b] ps IH]; intros x off last rest Hl Hb Hs; cbn [heads heads_len part_head_len tails map field register slots] in *.
  - rewrite N.add_0_r. reflexivity.
  - rewrite <- app_assoc. rewrite slice_get_app by reflexivity. cbn [obind].
    replace (x ++ b ++ heads off ps ++ rest) with ((x ++ b) ++ heads off ps ++ rest) by (rewrite <- app_assoc; reflexivity).
    replace (blen x + blen b) with (blen (x ++ b)) by apply blen_app.
    rewrite IH; [|assumption|rewrite blen_app; lia|assumption]. cbn [obind fst snd]. rewrite blen_app.
    f_equal. f_equal. lia.
  - rewrite blen_app in Hb, Hs. set (h := heads (off + blen b) ps).
    assert (Hh : blen h = heads_len ps) by apply heads_blen.
    replace (x ++ (le_bytes 4 off ++ h) ++ rest) with (x ++ (le_bytes 4 off ++ h ++ rest) ++ []).
    2:{ rewrite app_nil_r, <- app_assoc. reflexivity. }
    rewrite slice_app; [|reflexivity|rewrite !blen_app, blen_nil; lia]. cbn [obind].
    rewrite read_offset_app by lia. cbn [obind].
    assert (L4 : blen (le_bytes 4 off) = 4) by (unfold blen; rewrite le4_len; reflexivity).
    unfold sanitize_offset. rewrite !blen_app, L4, Hh, blen_nil.
    destruct (_ <? off) eqn:E1; [apply N.ltb_lt in E1; lia|].
    assert (E2 : match last with Some p => off <? p | None => false end = false).
    { destruct last; [apply N.ltb_ge; assumption|reflexivity]. }
    rewrite E2. destruct last as [l|]; cbn [obind].
    + replace (x ++ (le_bytes 4 off ++ h ++ rest) ++ []) with ((x ++ le_bytes 4 off) ++ h ++ rest)
        by (rewrite app_nil_r, <- !app_assoc; reflexivity).
      replace (blen x + 4) with (blen (x ++ le_bytes 4 off)) by (rewrite blen_app; lia).
      unfold h. rewrite IH; [|lia|rewrite blen_app; lia|lia]. cbn [obind fst snd]. rewrite blen_app, L4.
      f_equal. f_equal. lia.
    + replace (x ++ (le_bytes 4 off ++ h ++ rest) ++ []) with ((x ++ le_bytes 4 off) ++ h ++ rest)
        by (rewrite app_nil_r, <- !app_assoc; reflexivity).
      replace (blen x + 4) with (blen (x ++ le_bytes 4 off)) by (rewrite blen_app; lia).
      unfold h. rewrite IH; [|lia|rewrite blen_app; lia|lia]. cbn [obind fst snd]. rewrite blen_app, L4.
      f_equal. f_equal. lia.
Qed.

Lemma fill_ok ps : forall x off,
  blen x = off -> fill (x ++ tails ps) (slots off ps) = Ok (map part_bytes ps).
Proof.
  induction ps as [|[b|b] ps IH]; intros x off Hx; cbn [tails slots fill map part_bytes]; [reflexivity| |].
  - rewrite IH by assumption. reflexivity.
  - rewrite first_offset_slots. destruct (existsb _ ps) eqn:E.
    + rewrite slice_app by lia. cbn [obind].
      replace (x ++ b ++ tails ps) with ((x ++ b) ++ tails ps) by (rewrite app_assoc; reflexivity).
      rewrite IH by (rewrite blen_app; lia). reflexivity.
    + rewrite (no_var_tails _ E). rewrite slice_app by (rewrite ?blen_app, ?blen_nil; lia). cbn [obind].
      specialize (IH (x ++ b) (off + blen b)). rewrite (no_var_tails _ E) in IH.
      replace (x ++ b ++ []) with ((x ++ b) ++ []) by (rewrite app_assoc; reflexivity).
      rewrite IH by (rewrite blen_app; lia). reflexivity.
Qed.

(** Decoding inverts encoding. *)
Theorem decode_encode_container ps :
  blen (encode_container ps) < 2 ^ 32 ->
  decode_container (map field ps) (encode_container ps) = Ok (map part_bytes ps).
Proof.
  intros H. rewrite encode_container_len in H. unfold decode_container, encode_container.
  pose proof (register_ok ps [] (heads_len ps) None (tails ps) I) as R. cbn [app blen length] in R.
  rewrite blen_nil in R. rewrite R by lia. cbn [obind fst snd]. rewrite N.add_0_l, first_offset_slots.
  destruct (existsb _ ps) eqn:E.
  - rewrite N.eqb_refl. apply fill_ok. apply heads_blen.
  - rewrite (no_var_tails _ E), app_nil_r, heads_blen, N.eqb_refl.
    pose proof (fill_ok ps (heads (heads_len ps) ps) (heads_len ps) (heads_blen _ _)) as F.
    rewrite (no_var_tails _ E), app_nil_r in F. exact F.
Qed.

(** * Only encodings decode *)
Definition make_part (f : option N) (s : bytes) : part := match f with Some _ => PFix s | None => PVar s end.

Definition suffix (b : bytes) (i : N) : bytes := skipn (N.to_nat i) b.

Lemma register_inv b fields : bytes_ok b -> forall index last index' l,
  index <= blen b -> register b index last fields = Ok (index', l) ->
  index' <= blen b /\ index <= index' /\
  (match last, first_offset l with Some p, Some o => p <= o | _, _ => True end) /\
  forall items, fill b l = Ok items ->
    length items = length fields /\
    let ps := map (fun fi => make_part (fst fi) (snd fi)) (combine fields items) in
    map field ps = fields /\ heads_len ps = index' - index /\
    (forall o, first_offset l = Some o -> o <= blen b /\
       firstn (N.to_nat (index' - index)) (suffix b index) = heads o ps /\ suffix b o = tails ps) /\
    (first_offset l = None -> forall a, firstn (N.to_nat (index' - index)) (suffix b index) = heads a ps /\ tails ps = []).
Proof.
  intros Hok. induction fields as [|[n|] fields IH]; intros index last index' l Hi H; cbn [register] in H.
  - injection H as <- <-. cbn. split; [assumption|]. split; [lia|]. split; [destruct last; exact I|].
    intros items [= <-]. rewrite N.sub_diag. cbn. repeat split; try reflexivity; discriminate.
  - destruct (slice_get b index (index + n)) as [s| |] eqn:Sg; [|discriminate|discriminate]. cbn [obind] in H.
    apply slice_get_ok in Sg as (_ & Hn & Hs).
    destruct (register b (index + n) last fields) as [[i2 l2]| |] eqn:R; [|discriminate|discriminate].
    cbn [obind fst snd] in H. injection H as <- <-.
    destruct (IH _ _ _ _ Hn R) as (B1 & B2 & B3 & F). split; [assumption|]. split; [lia|]. split; [exact B3|].
    intros items Fi. cbn [fill] in Fi. destruct (fill b l2) as [it2| |] eqn:F2; [|discriminate|discriminate].
    cbn [obind] in Fi. injection Fi as <-. destruct (F _ eq_refl) as (L & M & Hh & O1 & O2).
    assert (Sn : blen s = n).
    { rewrite Hs, slice_len by lia. lia. }
    cbn [length combine map make_part fst snd field part_head_len heads_len heads tails first_offset].
    split; [rewrite L; reflexivity|]. cbn zeta. split; [rewrite Sn; f_equal; exact M|].
    split; [rewrite Hh, Sn; lia|].
    assert (Cut : firstn (N.to_nat (i2 - index)) (suffix b index) =
                  s ++ firstn (N.to_nat (i2 - (index + n))) (suffix b (index + n))).
    { unfold suffix. rewrite (split_at b index (index + n) i2) by lia. rewrite Hs. reflexivity. }
    rewrite Cut. split.
    + intros o Ho. destruct (O1 o Ho) as (P1 & P2 & P3). split; [assumption|]. rewrite P2. auto.
    + intros Ho a. destruct (O2 Ho a) as (P2 & P3). rewrite P2. auto.
  - destruct (slice b index (blen b)) as [rest| |] eqn:Sl; [|discriminate|discriminate]. cbn [obind] in H.
    apply slice_ok in Sl as (_ & _ & Hr).
    destruct (read_offset rest) as [o| |] eqn:Ro; [|discriminate|discriminate]. cbn [obind] in H.
    rewrite slice_all in Hr by assumption.
    apply read_offset_inv in Ro as (R1 & R2 & R3); [|rewrite Hr; apply bytes_ok_skipn; assumption].
    destruct (sanitize_offset o last (blen b) None) as [o'| |] eqn:So; [|discriminate|discriminate].
    cbn [obind] in H.
    assert (So' : o' = o /\ o <= blen b /\ match last with Some p => p <= o | None => True end).
    { unfold sanitize_offset in So.
      destruct last as [p|]; destruct (blen b <? o) eqn:E1; try discriminate So.
      - destruct (o <? p) eqn:E2; [discriminate|]. injection So as <-. apply N.ltb_ge in E1, E2. auto.
      - injection So as <-. apply N.ltb_ge in E1. auto. }
    destruct So' as (-> & Ho & Hl).
    assert (I4 : index + 4 <= blen b).
    { rewrite Hr in R1. unfold blen in *. rewrite skipn_length in R1. lia. }
    destruct (register b (index + 4) (Some o) fields) as [[i2 l2]| |] eqn:R; [|discriminate|discriminate].
    cbn [obind fst snd] in H. injection H as <- <-.
    destruct (IH _ _ _ _ I4 R) as (B1 & B2 & B3 & F). split; [assumption|]. split; [lia|].
    cbn [first_offset]. split; [destruct last; assumption|].
    intros items Fi. cbn [fill] in Fi.
    destruct (slice b o _) as [s| |] eqn:S2; [|discriminate|discriminate]. cbn [obind] in Fi.
    destruct (fill b l2) as [it2| |] eqn:F2; [|discriminate|discriminate].
    cbn [obind] in Fi. injection Fi as <-. destruct (F _ eq_refl) as (L & M & Hh & O1 & O2).
    apply slice_ok in S2 as (S2a & S2b & S2c).
    cbn [length combine map make_part fst snd field part_head_len heads_len heads tails].
    split; [rewrite L; reflexivity|]. cbn zeta. split; [f_equal; exact M|]. split; [rewrite Hh; lia|].
    assert (Cut : firstn (N.to_nat (i2 - index)) (suffix b index) =
                  le_bytes 4 o ++ firstn (N.to_nat (i2 - (index + 4))) (suffix b (index + 4))).
    { unfold suffix. rewrite (split_at b index (index + 4) i2) by lia. f_equal.
      replace (index + 4 - index) with 4 by lia. rewrite <- R3, Hr. reflexivity. }
    rewrite Cut. split; [|discriminate]. intros o0 [= <-]. split; [assumption|].
    destruct (first_offset l2) as [o2|] eqn:Fo.
    + destruct (O1 o2 eq_refl) as (P1 & P2 & P3).
      assert (So2 : blen s = o2 - o) by (rewrite S2c, slice_len by lia; reflexivity).
      split.
      * rewrite P2, So2. replace (o + (o2 - o)) with o2 by lia. reflexivity.
      * rewrite <- P3. unfold suffix. rewrite <- (slice_all b o) by assumption.
        rewrite (split_at b o o2 (blen b)) by lia. rewrite <- S2c. f_equal. apply slice_all. assumption.
    + destruct (O2 eq_refl (o + blen s)) as (P2 & P3). rewrite P3, app_nil_r. split.
      * rewrite P2. reflexivity.
      * rewrite S2c, slice_all by assumption. reflexivity.
Qed.

(** Whatever decodes is the encoding of the result. *)
Theorem decode_container_canonical fields b items :
  bytes_ok b -> decode_container fields b = Ok items ->
  length items = length fields /\
  let ps := map (fun fi => make_part (fst fi) (snd fi)) (combine fields items) in
  map field ps = fields /\ encode_container ps = b.
Proof.
  intros Hok H. unfold decode_container in H.
  destruct (register b 0 None fields) as [[i l]| |] eqn:R; [|discriminate|discriminate]. cbn [obind fst snd] in H.
  destruct (register_inv b fields Hok 0 None i l) as (B1 & B2 & B3 & F); [lia|assumption|].
  destruct (first_offset l) as [o|] eqn:Fo.
  - destruct (o =? i) eqn:E; [|discriminate]. apply N.eqb_eq in E. subst o.
    destruct (F _ H) as (L & M & Hh & O1 & O2). split; [assumption|]. cbn zeta. split; [assumption|].
    destruct (O1 i eq_refl) as (P1 & P2 & P3). unfold encode_container. rewrite Hh, N.sub_0_r in *.
    rewrite <- P2, <- P3. unfold suffix. cbn [skipn]. change (N.to_nat 0) with 0%nat. cbn [skipn]. apply firstn_skipn.
  - destruct (i =? blen b) eqn:E; [|discriminate]. apply N.eqb_eq in E. subst i.
    destruct (F _ H) as (L & M & Hh & O1 & O2). split; [assumption|]. cbn zeta. split; [assumption|].
    destruct (O2 eq_refl (blen b)) as (P2 & P3). unfold encode_container. rewrite Hh, P3, app_nil_r, N.sub_0_r in *.
    rewrite <- P2. unfold suffix. change (N.to_nat 0) with 0%nat. cbn [skipn].
    apply firstn_all2. unfold blen. lia.
Qed.

Lemma register_no_panic b fields : forall index last, index <= blen b -> register b index last fields <> Panic.
Proof.
  induction fields as [|[n|] fields IH]; intros index last Hi; cbn [register]; [discriminate| |].
  - destruct (slice_get b index (index + n)) as [s| |] eqn:Sg; cbn [obind]; [|discriminate|].
    + apply slice_get_ok in Sg as (_ & Hn & _). specialize (IH (index + n) last Hn).
      destruct (register b (index + n) last fields); cbn; congruence.
    + unfold slice_get in Sg. destruct (_ && _); discriminate.
  - unfold slice. replace ((index <=? blen b) && (blen b <=? blen b)) with true
      by (symmetry; apply andb_true_iff; split; apply N.leb_le; lia). cbn [obind].
    rewrite slice_all by assumption. unfold read_offset.
    destruct (blen _ <? 4) eqn:E; cbn [obind]; [discriminate|]. apply N.ltb_ge in E.
    unfold blen in E, Hi. rewrite skipn_length in E.
    destruct (sanitize_offset _ last (blen b) None) as [o| |] eqn:So; cbn [obind]; [|discriminate|].
    + specialize (IH (index + 4) (Some o)). destruct (register b (index + 4) (Some o) fields); cbn; try congruence.
      apply IH. unfold blen. lia.
    + unfold sanitize_offset in So. destruct last; repeat (destruct (_ <? _) in So; try discriminate).
Qed.

Lemma first_offset_bound b fields : forall index last i l,
  register b index last fields = Ok (i, l) ->
  (forall o, first_offset l = Some o -> o <= blen b /\ match last with Some p => p <= o | None => True end) /\
  fill b l <> Panic.
Proof.
  induction fields as [|[n|] fields IH]; intros index last i l H; cbn [register] in H.
  - injection H as <- <-. split; [discriminate|]. cbn. discriminate.
  - destruct (slice_get b index (index + n)) as [s| |]; [|discriminate|discriminate]. cbn [obind] in H.
    destruct (register b (index + n) last fields) as [[i2 l2]| |] eqn:R; [|discriminate|discriminate].
    cbn [obind fst snd] in H. injection H as <- <-. destruct (IH _ _ _ _ R) as (P1 & P2).
    split; [exact P1|]. cbn [fill]. destruct (fill b l2); cbn; congruence.
  - destruct (slice b index (blen b)) as [rest| |]; [|discriminate|discriminate]. cbn [obind] in H.
    destruct (read_offset rest) as [o| |]; [|discriminate|discriminate]. cbn [obind] in H.
    destruct (sanitize_offset o last (blen b) None) as [o'| |] eqn:So; [|discriminate|discriminate].
    cbn [obind] in H.
    assert (So' : o' = o /\ o <= blen b /\ match last with Some p => p <= o | None => True end).
    { unfold sanitize_offset in So.
      destruct last as [p|]; destruct (blen b <? o) eqn:E1; try discriminate So.
      - destruct (o <? p) eqn:E2; [discriminate|]. injection So as <-. apply N.ltb_ge in E1, E2. auto.
      - injection So as <-. apply N.ltb_ge in E1. auto. }
    destruct So' as (-> & Ho & Hl).
    destruct (register b (index + 4) (Some o) fields) as [[i2 l2]| |] eqn:R; [|discriminate|discriminate].
    cbn [obind fst snd] in H. injection H as <- <-. destruct (IH _ _ _ _ R) as (P1 & P2).
    cbn [first_offset fill]. split; [intros o0 [= <-]; auto|].
    assert (S : exists s, slice b o (match first_offset l2 with Some o2 => o2 | None => blen b end) = Ok s).
    { unfold slice. replace (_ && _) with true; [eexists; reflexivity|]. symmetry. apply andb_true_iff.
      destruct (first_offset l2) as [o2|] eqn:F; [destruct (P1 o2 eq_refl)|]; split; apply N.leb_le; lia. }
    destruct S as (s & ->). cbn [obind]. destruct (fill b l2); cbn; congruence.
Qed.

Theorem decode_container_no_panic fields b : decode_container fields b <> Panic.
Proof.
  unfold decode_container. pose proof (register_no_panic b fields 0 None ltac:(lia)) as R.
  destruct (register b 0 None fields) as [[i l]| |] eqn:E; cbn [obind]; [|discriminate|congruence].
  destruct (first_offset_bound _ _ _ _ _ _ E) as (_ & F). cbn [fst snd].
  destruct (first_offset l); destruct (_ =? _); congruence.
Qed.

(** * Lists of variable items *)
Lemma heads_len_var items : heads_len (map PVar items) = 4 * blen items.
Proof.
  induction items as [|x items IH]; cbn [map heads_len part_head_len]; [reflexivity|].
  rewrite IH, blen_cons. lia.
Qed.
Lemma tails_var items : tails (map PVar items) = concat items.
Proof. induction items as [|x items IH]; cbn; [reflexivity|]. rewrite IH. reflexivity. Qed.
Lemma encode_var_list_len items : blen (encode_var_list items) = 4 * blen items + blen (concat items).
Proof. unfold encode_var_list. rewrite encode_container_len, heads_len_var, tails_var. reflexivity. Qed.

Lemma var_items_SS b first i offset t :
  var_items b first i offset (S (S t)) =
      obind (slice b (4 * i) (blen b)) (fun rest =>
      obind (read_offset rest) (fun next =>
      obind (sanitize_offset next (Some offset) (blen b) (Some first)) (fun next =>
      obind (slice_get b offset next) (fun s =>
      obind (var_items b first (i + 1) next (S t)) (fun x => Ok (s :: x)))))).
Proof. reflexivity. Qed.

(** The loop: the item [x] starts at [off], [items] follow; [h0] are the offsets read so far. *)
Lemma var_items_ok first (items : list bytes) : forall h0 i pre tl0 x off,
  blen h0 = 4 * i -> off = blen pre -> first <= off ->
  pre = h0 ++ heads (off + blen x) (map PVar items) ++ tl0 ->
  blen pre + blen (concat (x :: items)) < 2 ^ 32 ->
  var_items (pre ++ concat (x :: items)) first i off (length (x :: items)) = Ok (x :: items).
Proof.
  induction items as [|y items IH]; intros h0 i pre tl0 x off Hi Hoff Hf Hpre Hlt.
  - cbn [length var_items concat]. rewrite !app_nil_r. subst off.
    pose proof (slice_get_app pre x [] (blen pre) (blen pre + blen x) eq_refl eq_refl) as G.
    rewrite app_nil_r in G. rewrite blen_app, G. reflexivity.
  - assert (Hlt' := Hlt). cbn [concat] in Hlt'. rewrite !blen_app in Hlt'. cbn [map heads] in Hpre.
    set (b := pre ++ concat (x :: y :: items)).
    assert (Lb : blen b = blen pre + blen x + blen y + blen (concat items)) by (unfold b; cbn [concat]; rewrite !blen_app; lia).
    assert (Hb : b = h0 ++ (le_bytes 4 (off + blen x) ++ heads (off + blen x + blen y) (map PVar items) ++ tl0 ++ x ++ y ++ concat items) ++ []).
    { unfold b. rewrite Hpre at 1. cbn [concat]. rewrite app_nil_r, <- !app_assoc. reflexivity. }
    change (length (x :: y :: items)) with (S (S (length items))). rewrite var_items_SS.
    change (S (length items)) with (length (y :: items)).
    replace (slice b (4 * i) (blen b)) with
      (Ok (le_bytes 4 (off + blen x) ++ heads (off + blen x + blen y) (map PVar items) ++ tl0 ++ x ++ y ++ concat items)).
    2:{ symmetry. rewrite Hb. apply slice_app; [lia|]. rewrite !blen_app, blen_nil. lia. }
    cbn [obind]. rewrite read_offset_app by lia. cbn [obind]. unfold sanitize_offset.
    destruct (_ <? first) eqn:E1; [apply N.ltb_lt in E1; lia|].
    destruct (blen b <? _) eqn:E2; [apply N.ltb_lt in E2; lia|].
    destruct (off + blen x <? off) eqn:E3; [apply N.ltb_lt in E3; lia|]. cbn [obind].
    replace (slice_get b off (off + blen x)) with (Ok x).
    2:{ symmetry. unfold b. cbn [concat]. apply slice_get_app; lia. }
    cbn [obind].
    replace b with ((pre ++ x) ++ concat (y :: items)) by (unfold b; cbn [concat]; rewrite <- app_assoc; reflexivity).
        match goal with |- obind ?z _ = _ => assert (G : z = Ok (y :: items)) end; [|rewrite G; reflexivity].
    apply (IH (h0 ++ le_bytes 4 (off + blen x)) (i + 1) (pre ++ x) (tl0 ++ x) y (off + blen x)).
    + rewrite blen_app, Hi. unfold blen at 1. rewrite le4_len. lia.
    + rewrite blen_app. lia.
    + lia.
    + rewrite Hpre at 1. rewrite <- !app_assoc. reflexivity.
    + cbn [concat]. rewrite !blen_app. lia.
Qed.

Theorem decode_encode_var_list max_len items :
  blen (encode_var_list items) < 2 ^ 32 -> match max_len with Some m => blen items <= m | None => True end ->
  decode_var_list max_len (encode_var_list items) = Ok items.
Proof.
  intros H Hm. destruct items as [|x items]; [reflexivity|].
  pose proof (encode_var_list_len (x :: items)) as L. rewrite L in H.
  unfold encode_var_list, encode_container. rewrite tails_var. cbn [map heads].
  set (n := heads_len (PVar x :: map PVar items)).
  assert (Hn : n = 4 * blen (x :: items)) by (unfold n; exact (heads_len_var (x :: items))).
  assert (Hn4 : 4 <= n) by (rewrite Hn, blen_cons; lia).
  set (b := (le_bytes 4 n ++ heads (n + blen x) (map PVar items)) ++ concat (x :: items)) in *.
  assert (Hb : exists t, b = le_bytes 4 n ++ t).
  { eexists. unfold b. rewrite <- app_assoc. reflexivity. }
  assert (Lb : blen b = n + blen (concat (x :: items))).
  { unfold b. rewrite !blen_app, heads_blen, heads_len_var. unfold blen at 1. rewrite le4_len, Hn, blen_cons. lia. }
  unfold decode_var_list. destruct b as [|b0 b'] eqn:Eb.
  { exfalso. rewrite blen_nil in Lb. lia. }
  rewrite <- Eb in *. clear b0 b' Eb.
  destruct Hb as (t & Hb). rewrite Hb at 1. rewrite read_offset_app by lia. cbn [obind].
  unfold sanitize_offset. rewrite N.ltb_irrefl, N.eqb_refl. cbn [negb].
  destruct (blen b <? n) eqn:E1; [apply N.ltb_lt in E1; lia|]. cbn [obind].
  replace (n mod 4 =? 0) with true by (symmetry; apply N.eqb_eq; rewrite Hn, N.mul_comm; apply N.mod_mul; discriminate).
  destruct (n <? 4) eqn:E2; [apply N.ltb_lt in E2; lia|]. cbn [negb orb].
  replace (n / 4) with (blen (x :: items)) by (rewrite Hn, N.mul_comm, N.div_mul; [reflexivity|discriminate]).
  replace (match max_len with Some m => m <? blen (x :: items) | None => false end) with false
    by (destruct max_len; [symmetry; apply N.ltb_ge; assumption|reflexivity]).
  replace (N.to_nat (blen (x :: items))) with (length (x :: items)) by (unfold blen; lia).
  assert (L4 : blen (le_bytes 4 n) = 4) by (unfold blen; rewrite le4_len; reflexivity).
  unfold b. apply (var_items_ok n items (le_bytes 4 n) 1 _ []).
  - rewrite L4. reflexivity.
  - rewrite blen_app, heads_blen, heads_len_var, L4, Hn, blen_cons. lia.
  - lia.
  - rewrite app_nil_r. reflexivity.
  - rewrite blen_app, heads_blen, heads_len_var, L4. rewrite blen_cons, N.mul_add_distr_l in H. exact H.
Qed.

(** Only encodings decode. *)
Lemma var_items_inv b first : bytes_ok b -> forall t i offset items,
  offset <= blen b -> 4 * i <= blen b ->
  var_items b first i offset (S t) = Ok items ->
  length items = S t /\
  suffix b offset = concat items /\
  exists x rest, items = x :: rest /\ 4 * (i + N.of_nat t) <= blen b /\
    firstn (4 * t) (suffix b (4 * i)) = heads (offset + blen x) (map PVar rest).
Proof.
  intros Hok. induction t as [|t IH]; intros i offset items Ho Hi H.
  - cbn [var_items] in H. destruct (slice_get b offset (blen b)) as [s| |] eqn:S; [|discriminate|discriminate].
    cbn [obind] in H. injection H as <-. apply slice_get_ok in S as (_ & _ & ->). rewrite slice_all by assumption.
    split; [reflexivity|]. split; [cbn; rewrite app_nil_r; reflexivity|]. eexists _, []. split; [reflexivity|].
    split; [lia|reflexivity].
  - rewrite var_items_SS in H.
    destruct (slice b (4 * i) (blen b)) as [rest| |] eqn:Sl; [|discriminate|discriminate]. cbn [obind] in H.
    apply slice_ok in Sl as (_ & _ & Hr). rewrite slice_all in Hr by assumption.
    destruct (read_offset rest) as [o| |] eqn:Ro; [|discriminate|discriminate]. cbn [obind] in H.
    apply read_offset_inv in Ro as (R1 & R2 & R3); [|rewrite Hr; apply bytes_ok_skipn; assumption].
    destruct (sanitize_offset o (Some offset) (blen b) (Some first)) as [o'| |] eqn:So; [|discriminate|discriminate].
    cbn [obind] in H.
    assert (So' : o' = o /\ o <= blen b /\ offset <= o).
    { unfold sanitize_offset in So. destruct (o <? first); [discriminate|].
      destruct (blen b <? o) eqn:E1; [discriminate|]. destruct (o <? offset) eqn:E2; [discriminate|].
      injection So as <-. apply N.ltb_ge in E1, E2. auto. }
    destruct So' as (-> & Ho2 & Hoo).
    destruct (slice_get b offset o) as [s| |] eqn:Sg; [|discriminate|discriminate]. cbn [obind] in H.
    apply slice_get_ok in Sg as (_ & _ & Hs).
    destruct (var_items b first (i + 1) o (S t)) as [x2| |] eqn:V; [|discriminate|discriminate].
    cbn [obind] in H. injection H as <-.
    assert (I4 : 4 * (i + 1) <= blen b).
    { rewrite Hr in R1. unfold blen in *. rewrite skipn_length in R1. lia. }
    destruct (IH _ _ _ Ho2 I4 V) as (L & C & y & rest2 & -> & B & Hh).
    assert (Ls : blen s = o - offset) by (rewrite Hs; apply slice_len; lia).
    split; [cbn [length] in *; congruence|]. split.
    { change (concat (s :: y :: rest2)) with (s ++ concat (y :: rest2)). rewrite <- C. unfold suffix.
      rewrite <- (slice_all b offset) by assumption. rewrite (split_at b offset o (blen b)) by lia.
      rewrite <- Hs. f_equal. apply slice_all. assumption. }
    exists s, (y :: rest2). split; [reflexivity|]. split; [lia|].
    cbn [map heads]. rewrite Ls. replace (offset + (o - offset)) with o by lia. rewrite <- Hh, <- R3, Hr.
    unfold suffix. replace (N.to_nat (4 * (i + 1))) with (N.to_nat (4 * i) + 4)%nat by lia.
    rewrite <- skipn_add. set (c := skipn (N.to_nat (4 * i)) b).
    replace (4 * S t)%nat with (4 + 4 * t)%nat by lia.
    rewrite <- (firstn_skipn 4 (firstn (4 + 4 * t) c)). rewrite firstn_firstn.
    replace (Nat.min 4 (4 + 4 * t)) with 4%nat by lia. f_equal.
    rewrite skipn_firstn_comm. f_equal. lia.
Qed.

Theorem decode_var_list_canonical max_len b items :
  bytes_ok b -> decode_var_list max_len b = Ok items ->
  encode_var_list items = b /\ match max_len with Some m => blen items <= m | None => True end.
Proof.
  intros Hok H. unfold decode_var_list in H. destruct b as [|b0 b'] eqn:Eb.
  { injection H as <-. split; [reflexivity|]. destruct max_len; [rewrite blen_nil; lia|exact I]. }
  rewrite <- Eb in *. clear b0 b' Eb.
  destruct (read_offset b) as [f| |] eqn:Ro; [|discriminate|discriminate]. cbn [obind] in H.
  apply read_offset_inv in Ro as (R1 & R2 & R3); [|assumption].
  destruct (sanitize_offset f None (blen b) (Some f)) as [f'| |] eqn:So; [|discriminate|discriminate].
  cbn [obind] in H.
  assert (So' : f' = f /\ f <= blen b).
  { unfold sanitize_offset in So. rewrite N.ltb_irrefl, N.eqb_refl in So. cbn [negb] in So.
    destruct (blen b <? f) eqn:E1; [discriminate|]. injection So as <-. apply N.ltb_ge in E1. auto. }
  destruct So' as (-> & Hf).
  destruct (f mod 4 =? 0) eqn:M; cbn [negb orb] in H; [|discriminate]. apply N.eqb_eq in M.
  destruct (f <? 4) eqn:F4; [discriminate|]. apply N.ltb_ge in F4.
  destruct (match max_len with Some m => m <? f / 4 | None => false end) eqn:Mx; [discriminate|].
  assert (Fd : f = 4 * (f / 4)) by (pose proof (N.div_mod' f 4); lia).
  set (k := f / 4) in *. assert (K1 : 1 <= k) by lia. clearbody k.
  destruct (N.to_nat k) as [|t] eqn:Kt; [lia|].
  destruct (var_items_inv b f Hok t 1 f items) as (L & C & x & rest & -> & B & Hh); [assumption|lia|assumption|].
  split.
  - unfold encode_var_list, encode_container. rewrite heads_len_var, tails_var, <- C. cbn [map heads].
    assert (Lk : 4 * blen (x :: rest) = f) by (unfold blen; rewrite L; lia). rewrite Lk, <- Hh.
    unfold suffix. rewrite <- R3.
    replace (N.to_nat (4 * 1)) with 4%nat by reflexivity.
    replace (firstn 4 b ++ firstn (4 * t) (skipn 4 b)) with (firstn (N.to_nat f) b).
    { apply firstn_skipn. }
    replace (N.to_nat f) with (4 + 4 * t)%nat by lia.
    rewrite <- (firstn_skipn 4 (firstn (4 + 4 * t) b)) at 1. rewrite firstn_firstn.
    replace (Nat.min 4 (4 + 4 * t)) with 4%nat by lia. f_equal.
    rewrite skipn_firstn_comm. f_equal. lia.
  - destruct max_len as [m|]; [|exact I]. apply N.ltb_ge in Mx. unfold blen. rewrite L. lia.
Qed.

Lemma slice_get_no_panic b i j : slice_get b i j <> Panic.
Proof. unfold slice_get. destruct (_ && _); discriminate. Qed.
Lemma sanitize_no_panic o p n f : sanitize_offset o p n f <> Panic.
Proof.
  unfold sanitize_offset. destruct (match f with Some _ => _ | None => _ end); [discriminate|].
  destruct (match p with Some _ => _ | None => _ end); [discriminate|]. destruct (n <? o); [discriminate|].
  destruct (match p with Some _ => _ | None => _ end); discriminate.
Qed.
Lemma read_offset_no_panic b : read_offset b <> Panic.
Proof. unfold read_offset. destruct (_ <? _); discriminate. Qed.

Lemma var_items_no_panic b first t : forall i offset,
  4 * (i + N.of_nat t) <= blen b + 4 -> var_items b first i offset t <> Panic.
Proof.
  induction t as [|[|t] IH]; intros i offset Hb; [discriminate| |].
  - cbn [var_items]. pose proof (slice_get_no_panic b offset (blen b)). destruct (slice_get _ _ _); cbn; congruence.
  - rewrite var_items_SS. unfold slice. replace ((4 * i <=? blen b) && (blen b <=? blen b)) with true.
    2:{ symmetry. apply andb_true_iff. split; apply N.leb_le; lia. }
    cbn [obind]. match goal with |- context [read_offset ?r] => pose proof (read_offset_no_panic r) as N1; destruct (read_offset r) as [o| |]; cbn [obind]; try congruence end.
    match goal with |- context [sanitize_offset ?a ?c ?d ?e] => pose proof (sanitize_no_panic a c d e) as N2; destruct (sanitize_offset a c d e) as [o'| |]; cbn [obind]; try congruence end.
    pose proof (slice_get_no_panic b offset o') as N3. destruct (slice_get b offset o') as [s| |]; cbn [obind]; try congruence.
    assert (G : var_items b first (i + 1) o' (S t) <> Panic) by (apply IH; lia).
    destruct (var_items b first (i + 1) o' (S t)); cbn [obind]; congruence.
Qed.

Theorem decode_var_list_no_panic max_len b : decode_var_list max_len b <> Panic.
Proof.
  unfold decode_var_list. destruct b as [|b0 b'] eqn:Eb; [discriminate|]. rewrite <- Eb. clear b0 b' Eb.
  pose proof (read_offset_no_panic b) as N1. destruct (read_offset b) as [f| |]; cbn [obind]; try congruence.
  destruct (sanitize_offset f None (blen b) (Some f)) as [f'| |] eqn:So; cbn [obind]; try congruence.
  2:{ exfalso. apply (sanitize_no_panic _ _ _ _ So). }
  assert (Hf : f' <= blen b).
  { unfold sanitize_offset in So. rewrite N.ltb_irrefl, N.eqb_refl in So. cbn [negb] in So.
    destruct (blen b <? f) eqn:E1; [discriminate|]. injection So as <-. apply N.ltb_ge in E1. auto. }
  destruct (_ || _); [discriminate|]. destruct (match max_len with Some m => _ | None => _ end); [discriminate|].
  apply var_items_no_panic. pose proof (N.div_mod' f' 4). lia.
Qed.

(** * Lists of fixed items *)
Lemma chunks_ok n (items : list bytes) : (0 < n)%nat -> Forall (fun x => length x = n) items ->
  forall fuel, (length (concat items) <= fuel)%nat -> chunks fuel n (concat items) = Ok items.
Proof.
  intros Hn. induction 1 as [|x items Hx H IH]; intros fuel Hf.
  - destruct fuel; reflexivity.
  - cbn [concat] in *. rewrite app_length in Hf. destruct fuel as [|f]; [lia|].
    destruct x as [|x0 x']; [cbn in Hx; lia|]. cbn [chunks app].
    change (x0 :: x' ++ concat items) with ((x0 :: x') ++ concat items).
    destruct (_ <? n)%nat eqn:E; [apply Nat.ltb_lt in E; rewrite app_length in E; lia|].
    rewrite skipn_app_len, firstn_app_len by congruence. rewrite IH by lia. reflexivity.
Qed.
Lemma chunks_inv n : (0 < n)%nat -> forall fuel b items,
  chunks fuel n b = Ok items -> concat items = b /\ Forall (fun x => length x = n) items.
Proof.
  intros Hn. induction fuel as [|f IH]; intros b items H; destruct b as [|b0 b'] eqn:Eb; cbn [chunks] in H; try discriminate.
  - injection H as <-. split; [reflexivity|constructor].
  - injection H as <-. split; [reflexivity|constructor].
  - rewrite <- Eb in *. clear b0 b' Eb. destruct (length b <? n)%nat eqn:E; [discriminate|]. apply Nat.ltb_ge in E.
    destruct (chunks f n (skipn n b)) as [x| |] eqn:C; [|discriminate|discriminate]. cbn [obind] in H. injection H as <-.
    destruct (IH _ _ C) as (C1 & C2). cbn [concat]. rewrite C1. split; [apply firstn_skipn|]. constructor; [|assumption].
    rewrite firstn_length. lia.
Qed.
Lemma chunks_no_panic n fuel b : chunks fuel n b <> Panic.
Proof.
  revert b. induction fuel as [|f IH]; intros [|b0 b']; cbn [chunks]; try discriminate.
  destruct (_ <? n)%nat; [discriminate|]. specialize (IH (skipn n (b0 :: b'))).
  destruct (chunks f n _); cbn; congruence.
Qed.
Lemma concat_len n (items : list bytes) : Forall (fun x => length x = n) items -> length (concat items) = (n * length items)%nat.
Proof. induction 1 as [|x l Hx H IH]; cbn; [lia|]. rewrite app_length, IH, Hx. lia. Qed.

Theorem decode_fixed_list_ok n max_len items :
  (0 < n)%nat -> Forall (fun x => length x = n) items ->
  match max_len with Some m => blen items <= m | None => True end ->
  decode_fixed_list n max_len (concat items) = Ok items.
Proof.
  intros Hn F Hm. unfold decode_fixed_list.
  replace (blen (concat items) / N.of_nat n) with (blen items).
  2:{ unfold blen. rewrite (concat_len n) by assumption.
      rewrite Nat2N.inj_mul, N.mul_comm, N.div_mul by lia. reflexivity. }
  replace (match max_len with Some m => m <? blen items | None => false end) with false
    by (destruct max_len; [symmetry; apply N.ltb_ge; assumption|reflexivity]).
  apply chunks_ok; auto.
Qed.
Theorem decode_fixed_list_canonical n max_len b items :
  (0 < n)%nat -> decode_fixed_list n max_len b = Ok items ->
  concat items = b /\ Forall (fun x => length x = n) items /\
  match max_len with Some m => blen items <= m | None => True end.
Proof.
  intros Hn H. unfold decode_fixed_list in H.
  destruct (match max_len with Some m => _ | None => _ end) eqn:M; [discriminate|].
  apply chunks_inv in H as (<- & F); [|assumption]. split; [reflexivity|]. split; [assumption|].
  destruct max_len as [m|]; [|exact I]. apply N.ltb_ge in M.
  unfold blen in M |- *. rewrite (concat_len n) in M by assumption.
  rewrite Nat2N.inj_mul, N.mul_comm, N.div_mul in M by lia. exact M.
Qed.
Theorem decode_fixed_list_no_panic n max_len b : decode_fixed_list n max_len b <> Panic.
Proof. unfold decode_fixed_list. destruct (match max_len with Some m => _ | None => _ end); [discriminate|]. apply chunks_no_panic. Qed.

Lemma decode_uint_ok n x : x < 256 ^ N.of_nat n -> decode_uint n (le_bytes n x) = Ok x.
Proof. intros H. unfold decode_uint. rewrite le_bytes_length, Nat.eqb_refl, le_num_le_bytes_id by assumption. reflexivity. Qed.
Lemma decode_uint_canonical n b x : bytes_ok b -> decode_uint n b = Ok x -> b = le_bytes n x /\ x < 256 ^ N.of_nat n.
Proof.
  intros Hb. unfold decode_uint. destruct (Nat.eqb _ _) eqn:E; [|discriminate]. apply Nat.eqb_eq in E. intros [= <-].
  subst n. split; [symmetry; apply le_bytes_le_num; assumption|apply le_num_bound; assumption].
Qed.
Lemma decode_uint_no_panic n b : decode_uint n b <> Panic.
Proof. unfold decode_uint. destruct (Nat.eqb _ _); discriminate. Qed.
