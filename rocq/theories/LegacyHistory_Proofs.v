From Verif Require Import Base Ssz_Model Ssz_Proofs Keys_Model Keys_Spec Keys_Proofs Keys_Props Merkle_Model Merkle_Spec Trie_Model StateContent_Model StateContent_Proofs
  Header_Model Header_Spec Header_Props LegacyHistory_Model LegacyHistory_Spec.

Section Codec.
Context {A : Type} (c : codec A).
Lemma take_read x junk : reads c -> take c (enc c x ++ junk) = Ok x.
Proof. intros R. unfold take. rewrite R. reflexivity. Qed.
Lemma take_read0 x : reads c -> take c (enc c x) = Ok x.
Proof. intros R. rewrite <- (app_nil_r (enc c x)). apply take_read, R. Qed.
Lemma take_inv b x : exact c -> take c b = Ok x -> item_of c x b.
Proof. intros E. unfold take. destruct (dec c b) as [[y rest]|] eqn:D; [|discriminate]. intros [= ->]. exists rest. apply E, D. Qed.
Lemma take_no_panic b : take c b <> Panic.
Proof. unfold take. destruct (dec c b) as [[y rest]|]; discriminate. Qed.
Lemma take_all_read l items : reads c -> items_of c l items -> take_all c items = Ok l.
Proof.
  intros R F. unfold take_all. induction F as [|x b l items [junk ->] F IH]; [reflexivity|]. cbn [map all_ok]. rewrite take_read by exact R. cbn [obind]. rewrite IH. reflexivity.
Qed.
Lemma items_exact l : items_of c l (map (enc c) l).
Proof. induction l; constructor; [exists []; symmetry; apply app_nil_r|assumption]. Qed.
Lemma take_all_inv l items : exact c -> take_all c items = Ok l -> items_of c l items.
Proof. intros E H. apply all_ok_inv in H. induction H as [|b x bs l T F IH]; constructor; [apply take_inv; assumption|exact IH]. Qed.
Lemma take_all_no_panic items : take_all c items <> Panic.
Proof.
  unfold take_all. induction items as [|b items IH]; cbn [map all_ok]; [discriminate|]. pose proof (take_no_panic b) as P. destruct (take c b); cbn [obind]; [|discriminate|congruence].
  destruct (all_ok (map (take c) items)); cbn [obind]; congruence.
Qed.
End Codec.

Lemma hash32_len l : Forall hash32 l -> Forall (fun x : bytes => length x = 32%nat) l.
Proof. intros H. eapply Forall_impl; [|exact H]. intros x [L _]. exact L. Qed.
Lemma hash32_len32 l : Forall hash32 l -> Forall len32 l.
Proof. exact (hash32_len l). Qed.
Lemma concat_bytes_ok l : Forall hash32 l -> bytes_ok (concat l).
Proof. induction 1 as [|x l [_ H] F IH]; cbn [concat]; [constructor|]. apply bytes_ok_app. auto. Qed.
Lemma concat_blen l : Forall hash32 l -> blen (concat l) = 32 * blen l.
Proof. intros H. unfold blen. rewrite (concat_len 32 l (hash32_len l H)). lia. Qed.
Lemma hashes_ok n l : Forall hash32 l -> length l = n -> decode_hashes n (concat l) = Ok l.
Proof.
  intros F L. unfold decode_hashes. rewrite decode_fixed_list_ok; [|lia|apply hash32_len, F|exact Logic.I]. cbn [obind]. rewrite L, Nat.eqb_refl. reflexivity.
Qed.
Lemma hashes_inv n b l : bytes_ok b -> decode_hashes n b = Ok l -> Forall hash32 l /\ length l = n /\ concat l = b.
Proof.
  intros Hb H. unfold decode_hashes in H. apply obind_ok in H as (l' & D & H). destruct (Nat.eqb_spec (length l') n) as [E|E]; [|discriminate]. injection H as ->.
  apply decode_fixed_list_canonical in D as (C & F & _); [|lia]. split; [|split; [exact E|exact C]]. rewrite <- C in Hb. clear - F Hb.
  induction F as [|x l L F IH]; [constructor|]. cbn [concat] in Hb. apply bytes_ok_app in Hb as [B1 B2]. constructor; [split; assumption|auto].
Qed.
Lemma hashes_no_panic n b : decode_hashes n b <> Panic.
Proof.
  unfold decode_hashes. pose proof (decode_fixed_list_no_panic 32 None b) as P. destruct (decode_fixed_list 32 None b); cbn [obind]; [|discriminate|congruence]. destruct (Nat.eqb _ _); discriminate.
Qed.

Lemma enc_block_proof p : encode_block_proof p = concat (beacon_block_proof p) ++ beacon_block_root p ++ concat (execution_block_proof p) ++ le_bytes 8 (slot p).
Proof. unfold encode_block_proof, encode_container. cbn [heads tails heads_len part_head_len]. rewrite !app_nil_r. reflexivity. Qed.
Lemma block_proof_len p n m : block_proof_ok p -> length (beacon_block_proof p) = n -> length (execution_block_proof p) = m ->
  blen (encode_block_proof p) = 32 * N.of_nat n + 32 + 32 * N.of_nat m + 8.
Proof.
  intros (F1 & [L1 _] & F2 & S) Ln Lm. rewrite enc_block_proof, !blen_app, !concat_blen by assumption. unfold blen. rewrite Ln, Lm, L1, le_bytes_length. lia.
Qed.
Lemma block_proof_bytes_ok p : block_proof_ok p -> bytes_ok (encode_block_proof p).
Proof. intros (F1 & [L1 B1] & F2 & S). rewrite enc_block_proof, !bytes_ok_app. split; [apply concat_bytes_ok, F1|]. split; [exact B1|]. split; [apply concat_bytes_ok, F2|apply le_bytes_ok]. Qed.
Lemma block_proof_enc n m p : block_proof_ok p -> length (beacon_block_proof p) = n -> length (execution_block_proof p) = m -> (n + m < 1000)%nat ->
  decode_block_proof n m (encode_block_proof p) = Ok p.
Proof.
  intros P Ln Lm Small. pose proof (block_proof_len p n m P Ln Lm) as Len. destruct P as (F1 & [L1 B1] & F2 & S).
  unfold decode_block_proof. unfold encode_block_proof in Len |- *.
  match type of Len with blen (encode_container ?ps) = _ => set (q := ps) in *; pose proof (decode_encode_container q) as D end.
  assert (Hlt : blen (encode_container q) < 2 ^ 32). { rewrite Len. clear - Small. lia. }
  specialize (D Hlt).
  assert (M : map field q = [Some (32 * N.of_nat n); Some 32; Some (32 * N.of_nat m); Some 8]).
  { unfold q. cbn [map field]. rewrite !concat_blen by assumption. unfold blen, u64. rewrite Ln, Lm, L1, le_bytes_length. reflexivity. }
  rewrite M in D. rewrite D. unfold q. cbn [obind map part_bytes]. rewrite !hashes_ok by assumption. cbn [obind]. unfold u64. rewrite decode_uint_ok by exact S. cbn [obind].
  destruct p; reflexivity.
Qed.
Lemma block_proof_dec n m b p : bytes_ok b -> decode_block_proof n m b = Ok p ->
  block_proof_ok p /\ length (beacon_block_proof p) = n /\ length (execution_block_proof p) = m /\ encode_block_proof p = b.
Proof.
  intros Hb H. unfold decode_block_proof in H. apply obind_ok in H as (l & D & H). destruct (decode_container_canonical _ _ _ Hb D) as (L & F & E).
  destruct l as [|x [|r [|y [|s [|? ?]]]]]; try discriminate. cbn [combine map fst snd make_part field] in F, E.
  apply obind_ok in H as (hx & Dx & H). apply obind_ok in H as (hy & Dy & H). apply obind_ok in H as (sl & Ds & H). injection H as <-.
  unfold encode_container in E. cbn [heads tails] in E. rewrite !app_nil_r in E.
  pose proof Hb as Hb'. rewrite <- E, !bytes_ok_app in Hb'. destruct Hb' as (Bx & Br & By & Bs).
  apply hashes_inv in Dx as (X1 & X2 & X3); [|exact Bx]. apply hashes_inv in Dy as (Y1 & Y2 & Y3); [|exact By]. apply decode_uint_canonical in Ds as [S1 S2]; [|exact Bs].
  cbn [beacon_block_proof beacon_block_root execution_block_proof slot]. split; [|split; [exact X2|split; [exact Y2|]]].
  - assert (F2 : blen r = 32) by congruence. unfold block_proof_ok. cbn [beacon_block_proof beacon_block_root execution_block_proof slot]. split; [exact X1|]. split; [split; [unfold blen in F2; lia|exact Br]|]. split; [exact Y1|exact S2].
  - rewrite enc_block_proof. cbn [beacon_block_proof beacon_block_root execution_block_proof slot]. rewrite X3, Y3, <- S1. exact E.
Qed.
Lemma block_proof_no_panic n m b : decode_block_proof n m b <> Panic.
Proof.
  unfold decode_block_proof. pose proof (decode_container_no_panic [Some (32 * N.of_nat n); Some 32; Some (32 * N.of_nat m); Some 8] b) as P.
  destruct (decode_container _ b) as [l| |]; cbn [obind]; [|discriminate|congruence]. destruct l as [|x [|r [|y [|s [|? ?]]]]]; try discriminate.
  pose proof (hashes_no_panic n x). destruct (decode_hashes n x); cbn [obind]; [|discriminate|congruence].
  pose proof (hashes_no_panic m y). destruct (decode_hashes m y); cbn [obind]; [|discriminate|congruence].
  pose proof (decode_uint_no_panic 8 s). destruct (decode_uint 8 s); cbn [obind]; [discriminate|discriminate|congruence].
Qed.

Lemma proof_len p : proof_ok p -> blen (encode_proof p) <= 1024.
Proof.
  intros [T P]. destruct p as [p|p|p|p]; cbn [encode_proof typed] in *.
  - rewrite concat_blen by exact P. unfold blen. rewrite T. lia.
  - destruct T as [T1 T2]. rewrite (block_proof_len p _ _ P T1 T2). lia.
  - destruct T as [T1 T2]. rewrite (block_proof_len p _ _ P T1 T2). lia.
  - destruct T as [T1 T2]. rewrite (block_proof_len p _ _ P T1 T2). lia.
Qed.
Lemma proof_bytes_ok p : proof_ok p -> bytes_ok (encode_proof p).
Proof. intros [T P]. destruct p; cbn [encode_proof]; [apply concat_bytes_ok, P|apply block_proof_bytes_ok, P..]. Qed.

Section Hwp.
Context (fk : forks).
Lemma proof_for_ok h p : era fk h p -> proof_ok p -> decode_proof_for fk h (encode_proof p) = Ok p.
Proof.
  intros E [T P]. unfold decode_proof_for, cancun_active, shanghai_active, paris_active. destruct p as [p|p|p|p]; cbn [era encode_proof typed] in *.
  - destruct E as (E1 & E2 & E3). apply N.leb_gt in E1, E2, E3. rewrite E1, E2, E3, hashes_ok by assumption. reflexivity.
  - destruct E as (E1 & E2 & E3). destruct T as [T1 T2]. apply N.leb_gt in E2, E3. apply N.leb_le in E1. rewrite E1, E2, E3, block_proof_enc by (assumption || lia). reflexivity.
  - destruct E as (E1 & E2). destruct T as [T1 T2]. apply N.leb_gt in E2. apply N.leb_le in E1. rewrite E1, E2, block_proof_enc by (assumption || lia). reflexivity.
  - destruct T as [T1 T2]. apply N.leb_le in E. rewrite E, block_proof_enc by (assumption || lia). reflexivity.
Qed.
Lemma proof_for_inv h b p : bytes_ok b -> decode_proof_for fk h b = Ok p -> era fk h p /\ proof_ok p /\ encode_proof p = b.
Proof.
  intros Hb. unfold decode_proof_for, cancun_active, shanghai_active, paris_active.
  destruct (N.leb_spec (cancun_time fk) (timestamp h)) as [C|C].
  { intros H. apply omap_ok in H as (q & D & <-). apply block_proof_dec in D as (P & T1 & T2 & E); [|exact Hb]. split; [exact C|]. split; [split; [split; assumption|exact P]|exact E]. }
  destruct (N.leb_spec (shanghai_time fk) (timestamp h)) as [S|S].
  { intros H. apply omap_ok in H as (q & D & <-). apply block_proof_dec in D as (P & T1 & T2 & E); [|exact Hb]. split; [split; assumption|]. split; [split; [split; assumption|exact P]|exact E]. }
  destruct (N.leb_spec (paris_block fk) (number h)) as [L|L].
  { intros H. apply omap_ok in H as (q & D & <-). apply block_proof_dec in D as (P & T1 & T2 & E); [|exact Hb]. split; [cbn; auto|]. split; [split; [split; assumption|exact P]|exact E]. }
  intros H. apply omap_ok in H as (q & D & <-). apply hashes_inv in D as (P & T & E); [|exact Hb]. split; [cbn; auto|]. split; [split; [exact T|exact P]|exact E].
Qed.
Lemma proof_for_no_panic h b : decode_proof_for fk h b <> Panic.
Proof.
  unfold decode_proof_for. pose proof (block_proof_no_panic 13 12 b). pose proof (block_proof_no_panic 13 11 b). pose proof (block_proof_no_panic 14 11 b). pose proof (hashes_no_panic 15 b).
  destruct (cancun_active _ _); [destruct (decode_block_proof 13 12 b); cbn; congruence|]. destruct (shanghai_active _ _); [destruct (decode_block_proof 13 11 b); cbn; congruence|].
  destruct (paris_active _ _); [destruct (decode_block_proof 14 11 b); cbn; congruence|]. destruct (decode_hashes 15 b); cbn; congruence.
Qed.

Context (HC : codec full_header).
Lemma header_value_eq h junk p : header_value HC h junk p = encode_container [PVar (enc HC h ++ junk); PVar (encode_proof p)].
Proof. unfold header_value. destruct p; cbn [encode_proof]; rewrite ?enc_block_proof; reflexivity. Qed.
Lemma enc_vv x y : encode_container [PVar x; PVar y] = le_bytes 4 8 ++ le_bytes 4 (8 + blen x) ++ x ++ y.
Proof. unfold encode_container. cbn [heads tails heads_len part_head_len]. rewrite !app_nil_r, <- !app_assoc. reflexivity. Qed.
Lemma enc_vvv x y z : encode_container [PVar x; PVar y; PVar z] = le_bytes 4 12 ++ le_bytes 4 (12 + blen x) ++ le_bytes 4 (12 + blen x + blen y) ++ x ++ y ++ z.
Proof. unfold encode_container. cbn [heads tails heads_len part_head_len]. rewrite !app_nil_r, <- !app_assoc. reflexivity. Qed.
Lemma blen4 n : blen (le_bytes 4 n) = 4.
Proof. unfold blen. rewrite le_bytes_length. reflexivity. Qed.
Lemma hwp_ok h junk p : reads HC -> blen (enc HC h ++ junk) <= 2048 -> era fk h p -> proof_ok p -> decode_hwp HC fk (header_value HC h junk p) = Ok (h, p).
Proof.
  intros R L E P. rewrite header_value_eq. unfold decode_hwp. pose proof (proof_len p P) as Lp.
  change (PVar (enc HC h ++ junk)) with (part_of None (enc HC h ++ junk)). change (PVar (encode_proof p)) with (part_of None (encode_proof p)).
  rewrite container2_ok; [|exact Logic.I|exact Logic.I|].
  - cbn [obind fst snd]. unfold decode_header, decode_bytelist. apply N.ltb_ge in L, Lp. rewrite L. cbn [obind]. rewrite take_read by exact R. cbn [obind]. rewrite Lp. cbn [obind].
    rewrite proof_for_ok by assumption. reflexivity.
  - cbn [part_of]. clear - L Lp. revert L Lp. generalize (enc HC h ++ junk) (encode_proof p). intros x y L Lp. rewrite enc_vv, !blen_app, !blen4. lia.
Qed.
Lemma hwp_inv b h p : exact HC -> bytes_ok b -> decode_hwp HC fk b = Ok (h, p) ->
  exists junk, b = header_value HC h junk p /\ blen (enc HC h ++ junk) <= 2048 /\ era fk h p /\ proof_ok p.
Proof.
  intros X Hb H. unfold decode_hwp in H. apply obind_ok in H as ([x y] & C & H). cbn [fst snd] in H. apply obind_ok in H as (h' & Dh & H). apply obind_ok in H as (y' & Dy & H). apply obind_ok in H as (p' & Dp & H).
  injection H as -> ->. apply container2_inv in C as (_ & _ & E); [|exact Hb]. cbn [part_of] in E. apply bytelist_inv in Dy as [-> Ly].
  unfold decode_header in Dh. apply obind_ok in Dh as (x' & Dx & Dh). apply bytelist_inv in Dx as [-> Lx]. apply take_inv in Dh as [junk ->]; [|exact X].
  pose proof Hb as Hb'. rewrite <- E, enc_vv, !bytes_ok_app in Hb'. apply proof_for_inv in Dp as (Er & P & Ep); [|apply Hb'].
  exists junk. rewrite header_value_eq, Ep. auto.
Qed.
Lemma header_no_panic b : decode_header HC b <> Panic.
Proof. unfold decode_header, decode_bytelist. destruct (_ <? _); cbn [obind]; [discriminate|apply take_no_panic]. Qed.
Lemma hwp_no_panic b : decode_hwp HC fk b <> Panic.
Proof.
  unfold decode_hwp. pose proof (container2_no_panic None None b) as P. destruct (container2 None None b) as [[x y]| |]; cbn [obind fst snd]; [|discriminate|congruence].
  pose proof (header_no_panic x) as Q. destruct (decode_header HC x) as [h| |]; cbn [obind]; [|discriminate|congruence].
  unfold decode_bytelist. destruct (_ <? _); cbn [obind]; [discriminate|]. pose proof (proof_for_no_panic h y) as Z. destruct (decode_proof_for fk h y); cbn [obind]; congruence.
Qed.
End Hwp.

Lemma F2_blen {A B} (P : A -> B -> Prop) l m : Forall2 P l m -> blen l = blen m.
Proof. unfold blen. induction 1; cbn [length]; lia. Qed.
Lemma var_list_blen_lt x y z : blen (encode_container [PVar x; PVar y; PVar z]) < 2 ^ 32 -> blen x < 2 ^ 32 /\ blen y < 2 ^ 32 /\ blen z < 2 ^ 32.
Proof. rewrite enc_vvv, !blen_app, !blen4. lia. Qed.
Lemma var_list_blen_lt2 x y : blen (encode_container [PVar x; PVar y]) < 2 ^ 32 -> blen x < 2 ^ 32 /\ blen y < 2 ^ 32.
Proof. rewrite enc_vv, !blen_app, !blen4. lia. Qed.
Lemma two_of_three x y z : bytes_ok (encode_container [PVar x; PVar y; PVar z]) -> container2 None None (encode_container [PVar x; PVar y; PVar z]) = Err.
Proof.
  intros Hb. pose proof (container2_no_panic None None (encode_container [PVar x; PVar y; PVar z])) as P. destruct (container2 None None _) as [[u v]| |] eqn:D; [|reflexivity|congruence].
  apply container2_inv in D as (_ & _ & E); [|exact Hb]. cbn [part_of] in E. rewrite enc_vv, enc_vvv in E. discriminate E.
Qed.

Section Body.
Context {tx rct wdl : Type}.
Context (HC : codec full_header) (HL : codec (list full_header)) (TC : codec tx) (RC : codec rct) (WC : codec wdl).
Notation block_body := (@block_body tx wdl).
Lemma body_ok (b : block_body) v : reads HL -> reads TC -> reads WC -> bytes_ok v -> blen v < 2 ^ 32 -> body_value HL TC WC b v -> decode_body HL TC WC v = Ok b.
Proof.
  intros R1 R2 R3 Hb L (txs & u & F & [junk U] & V). destruct b as [ts os ws]. cbn [transactions ommers withdrawals] in *. destruct ws as [ws|].
  - destruct V as (-> & wds & G & ->). unfold decode_body. apply var_list_blen_lt in L as L3. destruct L3 as (L1 & L2 & L3).
    assert (Pre : decode_pre_shanghai (wdl := wdl) HL TC (encode_container [PVar (encode_var_list txs); PVar u; PVar (encode_var_list wds)]) = Err).
    { unfold decode_pre_shanghai. rewrite two_of_three by exact Hb. reflexivity. }
    rewrite Pre. clear Pre. unfold decode_post_shanghai.
    change [PVar (encode_var_list txs); PVar u; PVar (encode_var_list wds)] with [part_of None (encode_var_list txs); part_of None u; part_of None (encode_var_list wds)].
    rewrite container3_ok; [|exact Logic.I|exact Logic.I|exact Logic.I|exact L]. cbn [obind fst snd]. rewrite !decode_encode_var_list by (exact Logic.I || assumption). cbn [obind].
    rewrite (take_all_read TC _ _ R2 F). cbn [obind]. rewrite U, take_read by exact R1. cbn [obind]. rewrite (take_all_read WC _ _ R3 G). reflexivity.
  - subst v. unfold decode_body, decode_pre_shanghai. apply var_list_blen_lt2 in L as L3. destruct L3 as (L1 & L2).
    change [PVar (encode_var_list txs); PVar u] with [part_of None (encode_var_list txs); part_of None u].
    rewrite container2_ok; [|exact Logic.I|exact Logic.I|exact L]. cbn [obind fst snd]. rewrite !decode_encode_var_list by (exact Logic.I || assumption). cbn [obind].
    rewrite (take_all_read TC _ _ R2 F). cbn [obind]. rewrite U, take_read by exact R1. reflexivity.
Qed.
Lemma body_inv (b : block_body) v : exact HL -> exact TC -> exact WC -> bytes_ok v -> decode_body HL TC WC v = Ok b -> body_value HL TC WC b v.
Proof.
  intros X1 X2 X3 Hb H. unfold decode_body in H. destruct (decode_pre_shanghai HL TC v) as [b'| |] eqn:D; [| |discriminate].
  - injection H as ->. unfold decode_pre_shanghai in D. apply obind_ok in D as ([x y] & C & D). cbn [fst snd] in D. apply obind_ok in D as (l & Dl & D). apply obind_ok in D as (ts & Dt & D). apply obind_ok in D as (os & Do & D).
    injection D as <-. apply container2_inv in C as (_ & _ & E); [|exact Hb]. cbn [part_of] in E. pose proof Hb as Hb'. rewrite <- E, enc_vv, !bytes_ok_app in Hb'.
    apply decode_var_list_canonical in Dl as [El _]; [|apply Hb']. apply take_all_inv in Dt; [|exact X2]. apply take_inv in Do; [|exact X1].
    exists l, y. cbn [transactions ommers withdrawals]. rewrite El. auto.
  - clear D. unfold decode_post_shanghai in H. apply obind_ok in H as ([[x y] z] & C & D). cbn [fst snd] in D. apply obind_ok in D as (l & Dl & D). apply obind_ok in D as (wl & Dw & D). apply obind_ok in D as (ts & Dt & D). apply obind_ok in D as (os & Do & D).
    destruct os; [|discriminate]. apply obind_ok in D as (ws & Dws & D). injection D as <-. apply container3_inv in C as (_ & _ & _ & E); [|exact Hb]. cbn [part_of] in E.
    pose proof Hb as Hb'. rewrite <- E, enc_vvv, !bytes_ok_app in Hb'.
    apply decode_var_list_canonical in Dl as [El _]; [|apply Hb']. apply decode_var_list_canonical in Dw as [Ew _]; [|apply Hb'].
    apply take_all_inv in Dt; [|exact X2]. apply take_all_inv in Dws; [|exact X3]. apply take_inv in Do; [|exact X1].
    exists l, y. cbn [transactions ommers withdrawals]. split; [exact Dt|]. split; [exact Do|]. split; [reflexivity|]. exists wl. rewrite El, Ew. auto.
Qed.
Lemma body_no_panic v : decode_body HL TC WC v <> Panic.
Proof.
  unfold decode_body. assert (P : decode_pre_shanghai (wdl := wdl) HL TC v <> Panic).
  { unfold decode_pre_shanghai. pose proof (container2_no_panic None None v) as P. destruct (container2 None None v) as [[x y]| |]; cbn [obind fst snd]; [|discriminate|congruence].
    pose proof (decode_var_list_no_panic None x). destruct (decode_var_list None x) as [l| |]; cbn [obind]; [|discriminate|congruence].
    pose proof (take_all_no_panic TC l). destruct (take_all TC l); cbn [obind]; [|discriminate|congruence].
    pose proof (take_no_panic HL y). destruct (take HL y); cbn [obind]; [discriminate|discriminate|congruence]. }
  destruct (decode_pre_shanghai HL TC v); [discriminate| |congruence]. clear P.
  unfold decode_post_shanghai. pose proof (container3_no_panic None None None v) as P. destruct (container3 None None None v) as [[[x y] z]| |]; cbn [obind fst snd]; [|discriminate|congruence].
  pose proof (decode_var_list_no_panic None x). destruct (decode_var_list None x) as [l| |]; cbn [obind]; [|discriminate|congruence].
  pose proof (decode_var_list_no_panic None z). destruct (decode_var_list None z) as [wl| |]; cbn [obind]; [|discriminate|congruence].
  pose proof (take_all_no_panic TC l). destruct (take_all TC l); cbn [obind]; [|discriminate|congruence].
  pose proof (take_no_panic HL y). destruct (take HL y) as [[|? ?]| |]; cbn [obind]; [|discriminate|discriminate|congruence].
  pose proof (take_all_no_panic WC wl). destruct (take_all WC wl); cbn [obind]; [discriminate|discriminate|congruence].
Qed.

Lemma receipts_ok l v : reads RC -> blen v < 2 ^ 32 -> receipts_value RC l v -> decode_receipts RC v = Ok l.
Proof.
  intros R L (N & items & F & ->). unfold decode_receipts. rewrite decode_encode_var_list; [|exact L|rewrite <- (F2_blen _ _ _ F); exact N]. cbn [obind]. apply take_all_read; assumption.
Qed.
Lemma receipts_inv l v : exact RC -> bytes_ok v -> decode_receipts RC v = Ok l -> receipts_value RC l v.
Proof.
  intros X Hb H. unfold decode_receipts in H. apply obind_ok in H as (items & D & H). apply decode_var_list_canonical in D as [E N]; [|exact Hb]. apply take_all_inv in H; [|exact X].
  split; [rewrite (F2_blen _ _ _ H); exact N|]. exists items. auto.
Qed.
Lemma receipts_no_panic v : decode_receipts RC v <> Panic.
Proof.
  unfold decode_receipts. pose proof (decode_var_list_no_panic (Some 16384) v). destruct (decode_var_list _ v); cbn [obind]; [apply take_all_no_panic|discriminate|congruence].
Qed.
Lemma all_header_ok l : reads HC -> Forall (fun h => blen (enc HC h) <= 2048) l -> all_ok (map (decode_header HC) (map (enc HC) l)) = Ok l.
Proof.
  intros R. induction 1 as [|h l L F IH]; [reflexivity|]. cbn [map all_ok]. unfold decode_header at 1, decode_bytelist. apply N.ltb_ge in L. rewrite L. cbn [obind]. rewrite take_read0 by exact R. cbn [obind]. rewrite IH. reflexivity.
Qed.
Lemma headers_blen l : Forall (fun h => blen (enc HC h) <= 2048) l -> blen (concat (map (enc HC) l)) <= 2048 * blen l.
Proof. induction 1 as [|h l L F IH]; cbn [map concat]; [rewrite !blen_nil; lia|]. rewrite blen_app, blen_cons. lia. Qed.
Lemma ephemeral_ok l : reads HC -> Forall (fun h => blen (enc HC h) <= 2048) l -> blen l <= 256 ->
  encode_ephemeral HC l = Ok (encode_var_list (map (enc HC) l)) /\ decode_ephemeral HC (encode_var_list (map (enc HC) l)) = Ok l.
Proof.
  intros R F N. split.
  - unfold encode_ephemeral. replace (forallb _ l) with true; [reflexivity|]. symmetry. apply forallb_forall. rewrite Forall_forall in F. intros h I. apply N.leb_le, F, I.
  - unfold decode_ephemeral. assert (E : blen (map (enc HC) l) = blen l) by (unfold blen; rewrite map_length; reflexivity). rewrite decode_encode_var_list; [|rewrite encode_var_list_len, E; pose proof (headers_blen l F); lia|rewrite E; exact N].
    cbn [obind]. apply all_header_ok; assumption.
Qed.
Lemma ephemeral_no_panic v : decode_ephemeral HC v <> Panic.
Proof.
  unfold decode_ephemeral. pose proof (decode_var_list_no_panic (Some 256) v). destruct (decode_var_list _ v) as [l| |]; cbn [obind]; [|discriminate|congruence]. clear.
  induction l as [|x l IH]; cbn [map all_ok]; [discriminate|]. pose proof (header_no_panic HC x). destruct (decode_header HC x); cbn [obind]; [|discriminate|congruence].
  destruct (all_ok (map (decode_header HC) l)); cbn [obind]; congruence.
Qed.
Lemma offer_ok h : reads HC -> blen (enc HC h) <= 2048 -> decode_offer_header HC (encode_offer_header HC h) = Ok h.
Proof.
  intros R L. unfold encode_offer_header, encode_header. rewrite firstn_all2 by (unfold blen in L; lia). unfold decode_offer_header. change (PVar (enc HC h)) with (part_of None (enc HC h)). rewrite container1_ok; [|exact Logic.I|].
  - cbn [obind]. unfold decode_header, decode_bytelist. apply N.ltb_ge in L. rewrite L. apply take_read0, R.
  - cbn [part_of]. rewrite enc_v, blen_app, blen4. lia.
Qed.
Lemma offer_no_panic v : decode_offer_header HC v <> Panic.
Proof. unfold decode_offer_header. pose proof (container1_no_panic None v). destruct (container1 None v); cbn [obind]; [apply header_no_panic|discriminate|congruence]. Qed.
End Body.
