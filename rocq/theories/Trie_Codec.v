(** The decoder [rlp_decode_node] reads back what [encode_raw] writes. *)
From Verif Require Import Base Keys_Model Keys_Spec Keys_Proofs Trie_Model Trie_Spec Trie_Proofs.

Lemma trim_num l : be_num (trim l) = be_num l.
Proof.
  induction l as [|x l IH]; [reflexivity|]. cbn [trim]. destruct x; [|reflexivity].
  rewrite IH, be_num_cons. lia.
Qed.
Lemma trim_len l : (length (trim l) <= length l)%nat.
Proof. induction l as [|x l IH]; [reflexivity|]. cbn [trim]. destruct x; cbn [length]; lia. Qed.
Lemma trim_pos l : 0 < be_num l -> trim l <> [].
Proof.
  intros H E. rewrite <- trim_num, E in H. cbn in H. unfold be_num in H. cbn in H. lia.
Qed.

Lemma take_ok k b rest : rlp_take k (blen b) (b ++ rest) = Some (k, b, rest).
Proof.
  unfold rlp_take. rewrite blen_app. destruct (blen b + blen rest <? blen b) eqn:E; [lia|].
  unfold blen. rewrite Nat2N.id, firstn_app_exact, skipn_app_exact. reflexivity.
Qed.
Lemma long_ok k l b rest : be_num l = blen b -> rlp_long k (blen l) (l ++ b ++ rest) = Some (k, b, rest).
Proof.
  intros H. unfold rlp_long. rewrite blen_app. destruct (blen l + blen (b ++ rest) <? blen l) eqn:E; [lia|].
  unfold blen at 1 2. rewrite Nat2N.id, firstn_app_exact, skipn_app_exact, H. apply take_ok.
Qed.
Lemma header_ok k b rest : blen b < 2 ^ 64 -> rlp_split (rlp_header k (blen b) ++ b ++ rest) = Some (k, b, rest).
Proof.
  intros H. unfold rlp_header. destruct (blen b <? 56) eqn:E.
  - cbn [app rlp_split]. destruct k.
    + destruct (192 + blen b <? 128) eqn:E1; [lia|]. destruct (192 + blen b <? 184) eqn:E2; [lia|].
      destruct (192 + blen b <? 192) eqn:E3; [lia|]. destruct (192 + blen b <? 248) eqn:E4; [|lia].
      replace (192 + blen b - 192) with (blen b) by lia. apply take_ok.
    + destruct (128 + blen b <? 128) eqn:E1; [lia|]. destruct (128 + blen b <? 184) eqn:E2; [|lia].
      replace (128 + blen b - 128) with (blen b) by lia. apply take_ok.
  - set (l := trim (be_bytes 8 (blen b))).
    assert (V : be_num l = blen b).
    { unfold l. rewrite trim_num. apply be_num_be_bytes_id. exact H. }
    assert (L8 : blen l <= 8).
    { pose proof (trim_len (be_bytes 8 (blen b))) as L. rewrite be_bytes_length in L. fold l in L.
      unfold blen at 1. clear - L. lia. }
    assert (L0 : 1 <= blen l).
    { assert (NN : l <> []) by (unfold l in *; apply trim_pos; rewrite trim_num in V; rewrite V; lia).
      destruct l; [congruence|]. rewrite blen_cons. clear. lia. }
    clearbody l. clear H E. cbn [app rlp_split]. destruct k.
    + destruct (247 + blen l <? 128) eqn:E1; [lia|]. destruct (247 + blen l <? 184) eqn:E2; [lia|].
      destruct (247 + blen l <? 192) eqn:E3; [lia|]. destruct (247 + blen l <? 248) eqn:E4; [lia|].
      replace (247 + blen l - 247) with (blen l) by lia. apply long_ok, V.
    + destruct (183 + blen l <? 128) eqn:E1; [lia|]. destruct (183 + blen l <? 184) eqn:E2; [lia|].
      destruct (183 + blen l <? 192) eqn:E3; [|lia].
      replace (183 + blen l - 183) with (blen l) by lia. apply long_ok, V.
Qed.
Lemma header_len k n : 1 <= blen (rlp_header k n).
Proof. unfold rlp_header. destruct (n <? 56); rewrite blen_cons; lia. Qed.
Lemma rlp_bytes_ok b rest : blen b < 2 ^ 64 -> rlp_split (rlp_bytes b ++ rest) = Some (false, b, rest).
Proof.
  intros H. unfold rlp_bytes.
  assert (G : rlp_split ((rlp_header false (blen b) ++ b) ++ rest) = Some (false, b, rest)) by (rewrite <- app_assoc; apply header_ok, H).
  destruct b as [|x [|y b]]; try exact G. destruct (x <? 128) eqn:E; [|exact G].
  cbn [app rlp_split]. rewrite E. reflexivity.
Qed.
Lemma rlp_list_ok p rest : blen p < 2 ^ 64 -> rlp_split (rlp_list p ++ rest) = Some (true, p, rest).
Proof. intros H. unfold rlp_list. rewrite <- app_assoc. apply header_ok, H. Qed.
Lemma rlp_bytes_len b : blen b <= blen (rlp_bytes b) /\ 1 <= blen (rlp_bytes b).
Proof.
  unfold rlp_bytes.
  assert (G : blen b <= blen (rlp_header false (blen b) ++ b) /\ 1 <= blen (rlp_header false (blen b) ++ b)).
  { rewrite blen_app. pose proof (header_len false (blen b)). lia. }
  destruct b as [|x [|y b]]; try exact G. destruct (x <? 128); [|exact G]. split; reflexivity.
Qed.
Lemma rlp_list_len p : blen p < blen (rlp_list p).
Proof. unfold rlp_list. rewrite blen_app. pose proof (header_len true (blen p)). lia. Qed.

(** An encoding that is split off whatever follows. *)
Definition item (k : bool) (payload e : bytes) : Prop :=
  1 <= blen e /\ forall rest, rlp_split (e ++ rest) = Some (k, payload, rest).
Lemma items_cons fuel k p e rest l : item k p e -> (length (e ++ rest) <= fuel)%nat ->
  (forall f, (length rest <= f)%nat -> rlp_items f rest = Some l) ->
  rlp_items fuel (e ++ rest) = Some ((k, p, e) :: l).
Proof.
  intros [L S] F R. destruct e as [|x e]; [rewrite blen_nil in L; lia|]. destruct fuel as [|f]; [cbn [length app] in F; lia|].
  cbn [rlp_items app]. change (x :: e ++ rest) with ((x :: e) ++ rest). rewrite S, R.
  2: { cbn [length] in F. rewrite app_length in F. cbn [length] in F. lia. }
  do 3 f_equal. apply firstn_app_len. rewrite app_length. lia.
Qed.
Lemma items_nil fuel : rlp_items fuel [] = Some [].
Proof. destruct fuel; reflexivity. Qed.
Lemma items_one fuel k p e : item k p e -> (length e <= fuel)%nat -> rlp_items fuel e = Some [(k, p, e)].
Proof.
  intros I L. pose proof (items_cons fuel k p e [] [] I) as H. rewrite app_nil_r in H. apply H; [exact L|].
  intros. apply items_nil.
Qed.
Lemma items_concat l rest tl : Forall (fun x => item (fst (fst x)) (snd (fst x)) (snd x)) l ->
  (forall f, (length rest <= f)%nat -> rlp_items f rest = Some tl) ->
  forall fuel, (length (concat (map snd l) ++ rest) <= fuel)%nat ->
  rlp_items fuel (concat (map snd l) ++ rest) = Some (l ++ tl).
Proof.
  induction 1 as [|[[k p] e] l I F IH]; intros R fuel Le; cbn [map concat app] in *; [apply R, Le|].
  rewrite <- app_assoc in *. cbn [fst snd] in *. apply items_cons; [exact I|exact Le|]. intros f Lf. apply IH; assumption.
Qed.

(** ** The hex-prefix encoding *)
Lemma flag_split g n : g <= 3 -> n <= 15 -> N.shiftr (16 * g + n) 4 = g /\ N.land (16 * g + n) 15 = n.
Proof.
  intros Hg Hn. rewrite N.shiftr_div_pow2. change (N.land (16 * g + n) 15) with (N.land (16 * g + n) (N.ones 4)).
  rewrite N.land_ones. change (2 ^ 4) with 16. lia.
Qed.
Lemma nibbles_le k : Forall nibble k -> Forall (fun n => n <= 15) k.
Proof. apply Forall_impl. unfold nibble. intros; lia. Qed.
Lemma compact_ok flag k : Forall nibble k ->
  (flag = 0 \/ flag = 2) -> from_compact (compact flag k) = Ok (negb (flag =? 0), k ++ (if flag =? 0 then [] else [16])).
Proof.
  intros Hk Hf. apply nibbles_le in Hk. unfold compact. pose proof (parity k) as P.
  destruct (blen k mod 2 =? 0).
  - cbn [from_compact]. destruct (flag_split flag 0) as [S _]; [lia|lia|]. replace (16 * flag + 0) with (16 * flag) in S by lia.
    rewrite S. rewrite unpack_pack_pairs by assumption. destruct Hf as [-> | ->]; cbn; [rewrite app_nil_r|]; reflexivity.
  - destruct P as (n & r & -> & Ev). inversion Hk; subst. cbn [from_compact].
    destruct (flag_split (flag + 1) n) as [S1 S2]; [lia|lia|]. rewrite S1, S2.
    rewrite unpack_pack_pairs by assumption. destruct Hf as [-> | ->]; cbn; [rewrite app_nil_r|]; reflexivity.
Qed.
Lemma leaf_key_snoc k : leaf_key (k ++ [16]) = Some k.
Proof. unfold leaf_key. rewrite split_last_snoc. reflexivity. Qed.
Lemma leaf_key_none p : Forall nibble p -> leaf_key p = None.
Proof.
  intros H. unfold leaf_key. destruct (split_last p) as [[k x]|] eqn:E; [|reflexivity].
  unfold split_last in E. destruct (rev p) as [|y r] eqn:R; [discriminate|]. injection E as <- <-.
  assert (I : In y p) by (apply in_rev; rewrite R; left; reflexivity).
  rewrite Forall_forall in H. apply H in I. unfold nibble in I. destruct (y =? 16) eqn:E; [lia|reflexivity].
Qed.
Lemma compact_len flag k : (length (compact flag k) <= 1 + length k)%nat.
Proof.
  unfold compact. destruct (blen k mod 2 =? 0); [|destruct k as [|n r]]; cbn [length]; try rewrite pack_pairs_len; lia.
Qed.

(** ** Nodes *)
Section Nodes.
Context (keccak : bytes -> bytes) (Hk : forall x, length (keccak x) = 32%nat).
Notation enc := (encode_raw keccak).
Notation seen := (seen keccak).
Notation link := (link keccak).
Notation wr := (write_node keccak enc).

Lemma write_trie c : trie c -> wr c = if blen (enc c) <? 32 then enc c else rlp_bytes (keccak (enc c)).
Proof. intros T. destruct c; try reflexivity. inversion T. Qed.
Lemma all_ok_map {A} (l : list A) : all_ok (map (@Ok A) l) = Ok l.
Proof. induction l as [|x l IH]; [reflexivity|]. cbn [map all_ok obind]. rewrite IH. reflexivity. Qed.
Lemma enc_ext p c : enc (NExt p c) = rlp_list (rlp_bytes (encode_compact p) ++ wr c).
Proof. reflexivity. Qed.
Lemma enc_branch l v : enc (NBranch l v) = rlp_list (concat (map wr l) ++ match v with Some v => rlp_bytes v | None => [128] end).
Proof. reflexivity. Qed.
Lemma concat_in (e : bytes) l : In e l -> blen e <= blen (concat l).
Proof.
  induction l as [|x l IH]; intros []; cbn [concat]; rewrite blen_app; [subst; lia|].
  pose proof (IH H). lia.
Qed.
(** A node is one item. *)
Lemma enc_item n : trie n -> blen (enc n) < 2 ^ 64 -> exists k p, item k p (enc n).
Proof.
  intros T L. destruct n as [|k v|p c|l v|h]; try (inversion T; fail).
  - exists false, []. split; [reflexivity|]. intros rest. apply (rlp_bytes_ok [] rest). reflexivity.
  - eexists true, _. split; [|intros rest; apply rlp_list_ok].
    + cbn [encode_raw]. match goal with |- 1 <= blen (rlp_list ?p) => pose proof (rlp_list_len p) end. lia.
    + cbn [encode_raw] in L. match type of L with blen (rlp_list ?p) < _ => pose proof (rlp_list_len p) end. lia.
  - rewrite enc_ext in *. eexists true, _. split; [|intros rest; apply rlp_list_ok].
    + match goal with |- 1 <= blen (rlp_list ?p) => pose proof (rlp_list_len p) end. lia.
    + match type of L with blen (rlp_list ?p) < _ => pose proof (rlp_list_len p) end. lia.
  - rewrite enc_branch in *. eexists true, _. split; [|intros rest; apply rlp_list_ok].
    + match goal with |- 1 <= blen (rlp_list ?p) => pose proof (rlp_list_len p) end. lia.
    + match type of L with blen (rlp_list ?p) < _ => pose proof (rlp_list_len p) end. lia.
Qed.
Lemma hash_blen x : blen (keccak x) = 32.
Proof. unfold blen. rewrite Hk. reflexivity. Qed.
Lemma write_item c : trie c -> exists k p, item k p (wr c).
Proof.
  intros T. rewrite write_trie by exact T. destruct (blen (enc c) <? 32) eqn:E.
  - apply enc_item; [exact T|]. change (2 ^ 64) with 18446744073709551616. lia.
  - exists false, (keccak (enc c)). split; [apply rlp_bytes_len|]. intros rest. apply rlp_bytes_ok. rewrite hash_blen. reflexivity.
Qed.
Lemma decode_hash f h : blen h = 32 -> rlp_decode (S f) (rlp_bytes h) = Ok (NHash h).
Proof.
  intros L. cbn [rlp_decode]. pose proof (rlp_bytes_ok h []) as R. rewrite app_nil_r in R. rewrite R by (rewrite L; reflexivity).
  destruct h; [discriminate|]. cbn [is_nil]. rewrite L. reflexivity.
Qed.

Lemma decode_seen n : trie n -> forall fuel, (length (enc n) < fuel)%nat -> blen (enc n) < 2 ^ 64 -> rlp_decode fuel (enc n) = Ok (seen n).
Proof.
  induction n as [|k v|p c IH|l v IH|h] using node_ind'; intros T fuel F L; (destruct fuel as [|f]; [lia|]); inversion T; subst.
  - reflexivity.
  - cbn [encode_raw] in *. unfold encode_compact in *. rewrite leaf_key_snoc in *.
    match type of L with blen (rlp_list ?p) < _ => set (pl := p) in *; pose proof (rlp_list_len pl) as LL end.
    assert (PL : blen pl < 2 ^ 64) by (eapply N.lt_trans; [exact LL|exact L]).
    assert (PF : blen pl < N.of_nat f) by (clear - LL F; unfold blen in *; lia).
    cbn [rlp_decode]. rewrite <- (app_nil_r (rlp_list pl)), rlp_list_ok by exact PL.
    assert (I : rlp_items (length pl) pl = Some [(false, compact 2 k0, rlp_bytes (compact 2 k0)); (false, v, rlp_bytes v)]).
    { unfold pl. apply items_cons; [|reflexivity|].
      - split; [apply rlp_bytes_len|]. intros rest. apply rlp_bytes_ok. unfold pl in PL. rewrite blen_app in PL.
        pose proof (rlp_bytes_len (compact 2 k0)). lia.
      - intros f' Lf. apply items_one; [|exact Lf].
        split; [apply rlp_bytes_len|]. intros rest. apply rlp_bytes_ok. unfold pl in PL. rewrite blen_app in PL.
        pose proof (rlp_bytes_len v). lia. }
    rewrite I. rewrite compact_ok by auto. reflexivity.
  - rewrite enc_ext in *. unfold encode_compact in *. rewrite leaf_key_none in * by assumption.
    match type of L with blen (rlp_list ?p) < _ => set (pl := p) in *; pose proof (rlp_list_len pl) as LL end.
    assert (PL : blen pl < 2 ^ 64) by (eapply N.lt_trans; [exact LL|exact L]).
    assert (PF : blen pl < N.of_nat f) by (clear - LL F; unfold blen in *; lia).
    cbn [rlp_decode]. rewrite <- (app_nil_r (rlp_list pl)), rlp_list_ok by exact PL.
    destruct (write_item c) as (k & q & It); [assumption|].
    assert (I : rlp_items (length pl) pl = Some [(false, compact 0 p, rlp_bytes (compact 0 p)); (k, q, wr c)]).
    { unfold pl. apply items_cons; [|reflexivity|].
      - split; [apply rlp_bytes_len|]. intros rest. apply rlp_bytes_ok. unfold pl in PL. rewrite blen_app in PL.
        pose proof (rlp_bytes_len (compact 0 p)). lia.
      - intros f' Lf. apply items_one; assumption. }
    rewrite I, compact_ok by auto. cbn [obind fst snd N.eqb negb]. change (0 =? 0) with true. cbn [negb]. rewrite app_nil_r, seen_ext. unfold Trie_Proofs.link.
    assert (W : (length (wr c) < f)%nat).
    { unfold pl in PF. rewrite blen_app in PF. clear - PF. unfold blen in *. lia. }
    rewrite write_trie in * by assumption. destruct (blen (enc c) <? 32) eqn:E.
    + rewrite IH; [reflexivity|assumption|exact W|]. change (2 ^ 64) with 18446744073709551616. lia.
    + destruct f as [|f]; [lia|]. rewrite decode_hash by apply hash_blen. reflexivity.
  - rewrite enc_branch in *. set (vb := match v with Some v => rlp_bytes v | None => [128] end) in *.
    match type of L with blen (rlp_list ?p) < _ => set (pl := p) in *; pose proof (rlp_list_len pl) as LL end.
    assert (PL : blen pl < 2 ^ 64) by (eapply N.lt_trans; [exact LL|exact L]).
    assert (PF : blen pl < N.of_nat f) by (clear - LL F; unfold blen in *; lia).
    cbn [rlp_decode]. rewrite <- (app_nil_r (rlp_list pl)), rlp_list_ok by exact PL.
    assert (Its : exists its, map snd its = map wr l /\ Forall (fun x => item (fst (fst x)) (snd (fst x)) (snd x)) its).
    { match goal with H : Forall trie l |- _ => clear - H Hk; induction H as [|c l T Ts IH] end.
      - exists []. split; constructor.
      - destruct IH as (its & E & Fo). destruct (write_item c T) as (k & q & It).
        exists ((k, q, wr c) :: its). split; [cbn; rewrite E; reflexivity|]. constructor; assumption. }
    destruct Its as (its & E & Fo).
    set (vv := match v with Some v => v | None => [] end).
    assert (Iv : item false vv vb).
    { unfold vb, vv. destruct v as [v|].
      - split; [apply rlp_bytes_len|]. intros rest. apply rlp_bytes_ok. unfold pl, vb in PL. rewrite blen_app in PL.
        pose proof (rlp_bytes_len v). lia.
      - split; [reflexivity|]. intros rest. apply (rlp_bytes_ok [] rest). reflexivity. }
    assert (I : rlp_items (length pl) pl = Some (its ++ [(false, vv, vb)])).
    { unfold pl. rewrite <- E. apply items_concat; [exact Fo| |reflexivity].
      intros f' Lf. apply items_one; assumption. }
    rewrite I.
    assert (Li : length its = 16%nat) by (rewrite <- (map_length snd), E, map_length; assumption).
    assert (Lb : blen (its ++ [(false, vv, vb)]) =? 17 = true) by (rewrite blen_app; unfold blen; rewrite Li; reflexivity).
    assert (Fi : firstn 16 (its ++ [(false, vv, vb)]) = its) by (apply firstn_app_len; auto).
    assert (Ni : nth_error (its ++ [(false, vv, vb)]) 16 = Some (false, vv, vb)).
    { rewrite nth_error_app2 by lia. rewrite Li. reflexivity. }
    set (res := its ++ [(false, vv, vb)]) in *.
    assert (G : obind (all_ok (map (fun it => rlp_decode f (snd it)) (firstn 16 res))) (fun cs =>
                  match nth_error res 16 with
                  | Some (false, v, _) => Ok (NBranch cs (if is_nil v then None else Some v))
                  | _ => Err
                  end) = Ok (seen (NBranch l v))).
    { rewrite Fi, Ni.
      assert (D : map (fun it => rlp_decode f (snd it)) its = map (@Ok node) (map link l)).
      { rewrite <- (map_map snd (rlp_decode f)), E, !map_map. apply map_ext_in. intros c Ic.
        rewrite Forall_forall in IH. match goal with H : Forall trie l |- _ => rewrite Forall_forall in H; pose proof (H c Ic) as Tc end.
        assert (W : (length (wr c) < f)%nat).
        { pose proof (concat_in (wr c) (map wr l) (in_map wr l c Ic)) as Cc. unfold pl in PF. rewrite blen_app in PF. clear - PF Cc. unfold blen in *. lia. }
        rewrite write_trie in * by assumption. unfold Trie_Proofs.link. destruct (blen (enc c) <? 32) eqn:Ec.
        - apply IH; auto. change (2 ^ 64) with 18446744073709551616. lia.
        - destruct f as [|f']; [lia|]. apply decode_hash, hash_blen. }
      rewrite D, all_ok_map. cbn [obind]. rewrite seen_branch.
      assert (Vv : (if is_nil vv then None else Some vv) = v).
      { unfold vv. match goal with H : v <> Some [] |- _ => clear - H; destruct v as [[|x v]|]; try reflexivity; exfalso; apply H; reflexivity end. }
      rewrite Vv. reflexivity. }
    rewrite <- G. clear - Li Lb.
    destruct its as [|[[k0 b0] r0] [|[[k1 b1] r1] [|[[k2 b2] r2] its]]]; try discriminate.
    subst res. cbn [app] in *. destruct k0; rewrite Lb; reflexivity.
Qed.

Lemma rlp_reads_back : reads_back keccak rlp_decode_node.
Proof.
  intros n T L. apply decode_seen; [exact T|lia|]. eapply N.le_lt_trans; [exact L|reflexivity].
Qed.
End Nodes.
