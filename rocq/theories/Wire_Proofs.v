From Verif Require Import Base Ssz_Model Ssz_Proofs Wire_Model Wire_Spec.

Lemma map_o_ok {A B} (f : A -> outcome B) (g : B -> A) l :
  (forall y, In y l -> f (g y) = Ok y) -> map_o f (map g l) = Ok l.
Proof.
  induction l as [|y l IH]; intros H; [reflexivity|]. cbn [map map_o]. rewrite H by (left; reflexivity). cbn [obind].
  rewrite IH by (intros z Hz; apply H; right; assumption). reflexivity.
Qed.
Lemma map_o_inv {A B} (f : A -> outcome B) (g : B -> A) l : forall ys,
  (forall x y, In x l -> f x = Ok y -> g y = x) -> map_o f l = Ok ys -> map g ys = l.
Proof.
  induction l as [|x l IH]; intros ys H E; cbn [map_o] in E; [injection E as <-; reflexivity|].
  destruct (f x) as [y| |] eqn:F; try discriminate. cbn [obind] in E.
  destruct (map_o f l) as [ys'| |] eqn:M; try discriminate. cbn [obind] in E. injection E as <-.
  cbn [map]. f_equal; [apply H; [left; reflexivity|assumption]|].
  apply IH; [|reflexivity]. intros; apply H; [right; assumption|assumption].
Qed.
Lemma map_o_no_panic {A B} (f : A -> outcome B) l : (forall x, f x <> Panic) -> map_o f l <> Panic.
Proof.
  intros H. induction l as [|x l IH]; cbn [map_o]; [discriminate|].
  specialize (H x). destruct (f x); cbn [obind]; try congruence. destruct (map_o f l); cbn [obind]; congruence.
Qed.
Lemma map_o_Forall {A B} (f : A -> outcome B) (P : B -> Prop) l : forall ys,
  (forall x y, In x l -> f x = Ok y -> P y) -> map_o f l = Ok ys -> Forall P ys.
Proof.
  induction l as [|x l IH]; intros ys H E; cbn [map_o] in E; [injection E as <-; constructor|].
  destruct (f x) as [y| |] eqn:F; try discriminate. cbn [obind] in E.
  destruct (map_o f l) as [ys'| |] eqn:M; try discriminate. cbn [obind] in E. injection E as <-.
  constructor; [apply (H x); [left; reflexivity|assumption]|]. apply IH; [|reflexivity].
  intros; eapply H; [right; eassumption|assumption].
Qed.

Lemma ext_round t : ext_ok t -> ext_of_u16 (ext_u16 t) = t.
Proof.
  destruct t as [| | | |n]; try (vm_compute; reflexivity). intros (H0 & H1 & H2 & H3 & H4). cbn [ext_u16]. unfold ext_of_u16.
  apply N.eqb_neq in H1, H2, H3, H4. rewrite H1, H2, H3, H4. reflexivity.
Qed.
Lemma ext_u16_of n : ext_u16 (ext_of_u16 n) = n.
Proof.
  unfold ext_of_u16. destruct (n =? 0) eqn:A; [apply N.eqb_eq in A; auto|].
  destruct (n =? 1) eqn:B; [apply N.eqb_eq in B; auto|]. destruct (n =? 2) eqn:C; [apply N.eqb_eq in C; auto|].
  destruct (n =? 65535) eqn:D; [apply N.eqb_eq in D; auto|]. reflexivity.
Qed.
Lemma ext_ok_of n : n < 65536 -> ext_ok (ext_of_u16 n).
Proof.
  intros H. unfold ext_of_u16. destruct (n =? 0) eqn:A; [exact I|].
  destruct (n =? 1) eqn:B; [exact I|]. destruct (n =? 2) eqn:C; [exact I|].
  destruct (n =? 65535) eqn:D; [exact I|]. apply N.eqb_neq in A, B, C, D. cbn. auto.
Qed.
Lemma ext_u16_bound t : ext_ok t -> ext_u16 t < 65536.
Proof. destruct t; cbn; [lia|lia|lia|lia|]. intros (H & _). exact H. Qed.

(** Fields with given fixed parts. *)
Lemma fields_eq ps fs : map field ps = fs -> blen (encode_container ps) < 2 ^ 32 ->
  decode_container fs (encode_container ps) = Ok (map part_bytes ps).
Proof. intros <- H. apply decode_encode_container, H. Qed.

Section P.
Context {E : Type} (enr_rlp : E -> bytes) (dec_nodes dec_content : bytes -> outcome E).
Notation encode := (encode_message enr_rlp).
Notation decode := (decode_message dec_nodes dec_content).

Lemma le_blen n x : blen (le_bytes n x) = N.of_nat n.
Proof. unfold blen. rewrite le_bytes_length. reflexivity. Qed.

Lemma var_part_len ps p : In (PVar p) ps -> blen p <= blen (encode_container ps).
Proof.
  intros H. rewrite encode_container_len. enough (blen p <= blen (tails ps)) by lia.
  induction ps as [|q ps IH]; [destruct H|]. destruct H as [->|H].
  - cbn [tails]. rewrite blen_app. lia.
  - specialize (IH H). destruct q; cbn [tails]; rewrite ?blen_app; lia.
Qed.

Lemma lt_dec1 a b : 1 + a < b -> a < b.
Proof. lia. Qed.

Lemma ping_round k s t p :
  s < 2 ^ 64 -> ext_ok t -> blen p <= 1100 ->
  decode_ping (E:=E) k (encode_container [PFix (le_bytes 8 s); PFix (le_bytes 2 (ext_u16 t)); PVar p]) = Ok (k s t p).
Proof.
  intros Hs Ht Hp. unfold decode_ping. rewrite fields_eq.
  - cbn [map part_bytes obind]. rewrite decode_uint_ok by exact Hs. cbn [obind].
    rewrite decode_uint_ok by (apply ext_u16_bound; assumption). cbn [obind].
    rewrite ext_round by assumption. unfold decode_custom_payload. rewrite firstn_all2; [reflexivity|].
    unfold blen in Hp. lia.
  - cbn [map field]. rewrite !le_blen. reflexivity.
  - rewrite encode_container_len. cbn [heads_len part_head_len tails]. rewrite !le_blen, app_nil_r. lia.
Qed.

Theorem message_round m :
  message_ok m -> blen (encode m) < 2 ^ 32 ->
  (forall e, In e (records m) -> dec_nodes (enr_rlp e) = Ok e /\ dec_content (enr_rlp e) = Ok e) ->
  decode (encode m) = Ok m.
Proof.
  intros Hm Hl He. unfold encode_message in *. rewrite blen_cons in Hl. unfold decode_message.
  destruct m as [s t p|s t p|ds|t es|k|[id|c|es]|ks|id ks]; cbn [selector split_union];
    match goal with |- context [?x <=? 127] => change (x <=? 127) with true end; cbn [obind fst snd]; cbn iota;
    cbn [encode_body] in *; cbn [message_ok] in Hm.
  - apply ping_round; tauto.
  - apply ping_round; tauto.
  - unfold decode_find_nodes. rewrite fields_eq by (try reflexivity; lia). cbn [map part_bytes obind].
    rewrite decode_fixed_list_ok; [|lia| |exact I].
    + cbn [obind]. rewrite map_o_ok; [reflexivity|]. intros y Hy. apply decode_uint_ok.
      rewrite Forall_forall in Hm. apply Hm, Hy.
    + apply Forall_forall. intros x Hx. apply in_map_iff in Hx as (d & <- & _). apply le_bytes_length.
  - unfold decode_nodes. rewrite fields_eq; [| |lia].
    + cbn [map part_bytes obind]. rewrite decode_uint_ok by exact Hm. cbn [obind].
      rewrite decode_encode_var_list; [|eapply N.le_lt_trans; [|exact (lt_dec1 _ _ Hl)]|exact I].
      * cbn [obind]. rewrite map_o_ok; [reflexivity|]. intros y Hy. apply He. exact Hy.
      * apply (var_part_len [_; _]). right. left. reflexivity.
    + cbn [map field]. rewrite le_blen. reflexivity.
  - unfold decode_find_content. rewrite fields_eq by (try reflexivity; lia). reflexivity.
  - unfold decode_content. cbn [split_union]. change (0 <=? 127) with true. cbn [obind fst snd]. cbn iota.
    rewrite decode_uint_ok by exact Hm. reflexivity.
  - unfold decode_content. cbn [split_union]. change (1 <=? 127) with true. cbn [obind fst snd]. reflexivity.
  - unfold decode_content. cbn [split_union]. change (2 <=? 127) with true. cbn [obind fst snd]. cbn iota.
    rewrite blen_cons in Hl. rewrite decode_encode_var_list; [|lia|exact I]. cbn [obind].
    rewrite map_o_ok; [reflexivity|]. intros y Hy. apply He. exact Hy.
  - unfold decode_offer. rewrite fields_eq by (try reflexivity; lia). cbn [map part_bytes obind].
    rewrite decode_encode_var_list; [reflexivity| |exact I].
    eapply N.le_lt_trans; [|exact (lt_dec1 _ _ Hl)].
    apply (var_part_len [_]). left. reflexivity.
  - unfold decode_accept. rewrite fields_eq; [| |lia].
    + cbn [map part_bytes obind]. rewrite decode_uint_ok by exact Hm. reflexivity.
    + cbn [map field]. rewrite le_blen. reflexivity.
Qed.

(** * Only encodings decode *)
Lemma container_bytes_ok ps : bytes_ok (encode_container ps) -> Forall (fun p => bytes_ok (part_bytes p)) ps.
Proof.
  unfold encode_container. rewrite bytes_ok_app. intros [H1 H2]. revert H1 H2. generalize (heads_len ps).
  induction ps as [|[b|b] ps IH]; intros off H1 H2; [constructor| |]; cbn [heads tails] in *.
  - apply bytes_ok_app in H1 as [H1 H3]. constructor; [exact H1|]. eapply IH; eassumption.
  - apply bytes_ok_app in H2 as [H2 H4]. apply bytes_ok_app in H1 as [_ H3]. constructor; [exact H2|].
    eapply IH; eassumption.
Qed.

Lemma cont1 a b items : bytes_ok b -> decode_container [a] b = Ok items ->
  exists x, items = [x] /\ encode_container [make_part a x] = b /\ bytes_ok x /\ map field [make_part a x] = [a].
Proof.
  intros Hb H. destruct (decode_container_canonical _ _ _ Hb H) as (L & M & C).
  destruct items as [|x [|? ?]]; try discriminate L. cbn [combine map fst snd] in M, C.
  exists x. rewrite <- C in Hb. apply container_bytes_ok in Hb. inversion Hb; subst.
  repeat split; try assumption. destruct a; assumption.
Qed.
Lemma cont2 a a2 b items : bytes_ok b -> decode_container [a; a2] b = Ok items ->
  exists x y, items = [x; y] /\ encode_container [make_part a x; make_part a2 y] = b /\ bytes_ok x /\ bytes_ok y /\
    map field [make_part a x; make_part a2 y] = [a; a2].
Proof.
  intros Hb H. destruct (decode_container_canonical _ _ _ Hb H) as (L & M & C).
  destruct items as [|x [|y [|? ?]]]; try discriminate L. cbn [combine map fst snd] in M, C.
  exists x, y. rewrite <- C in Hb. apply container_bytes_ok in Hb. inversion Hb as [|? ? Hx Hb2]; subst. inversion Hb2; subst.
  repeat split; try assumption; [destruct a|destruct a2]; assumption.
Qed.
Lemma cont3 a a2 a3 b items : bytes_ok b -> decode_container [a; a2; a3] b = Ok items ->
  exists x y z, items = [x; y; z] /\ encode_container [make_part a x; make_part a2 y; make_part a3 z] = b /\
    bytes_ok x /\ bytes_ok y /\ bytes_ok z.
Proof.
  intros Hb H. destruct (decode_container_canonical _ _ _ Hb H) as (L & M & C).
  destruct items as [|x [|y [|z [|? ?]]]]; try discriminate L. cbn [combine map fst snd] in M, C.
  exists x, y, z. rewrite <- C in Hb. apply container_bytes_ok in Hb. inversion Hb as [|? ? Hx Hb2]; subst.
  inversion Hb2 as [|? ? Hy Hb3]; subst. inversion Hb3; subst.
  repeat split; try assumption; [destruct a|destruct a2|destruct a3]; assumption.
Qed.

Lemma ping_inv k b m : bytes_ok b -> decode_ping (E:=E) k b = Ok m ->
  exists s t p, m = k s t (firstn 1100 p) /\ s < 2 ^ 64 /\ ext_ok t /\
    b = encode_container [PFix (le_bytes 8 s); PFix (le_bytes 2 (ext_u16 t)); PVar p].
Proof.
  intros Hb H. unfold decode_ping in H. destruct (decode_container _ b) as [items| |] eqn:D; try discriminate.
  cbn [obind] in H. destruct (cont3 _ _ _ _ _ Hb D) as (x & y & z & -> & C & Hx & Hy & Hz).
  destruct (decode_uint 8 x) as [s| |] eqn:D1; try discriminate. cbn [obind] in H.
  destruct (decode_uint 2 y) as [t| |] eqn:D2; try discriminate. cbn [obind] in H. injection H as <-.
  apply decode_uint_canonical in D1 as (-> & B1); [|assumption]. apply decode_uint_canonical in D2 as (-> & B2); [|assumption].
  exists s, (ext_of_u16 t), z. rewrite ext_u16_of. split; [reflexivity|]. split; [exact B1|].
  split; [apply ext_ok_of; exact B2|]. symmetry. exact C.
Qed.

(** Everything but a ping or pong payload that was cut decodes only from its encoding. *)
Theorem message_canonical b m :
  bytes_ok b -> decode b = Ok m ->
  (forall x e, dec_nodes x = Ok e -> enr_rlp e = x) -> (forall x e, dec_content x = Ok e -> enr_rlp e = x) ->
  message_ok m /\ (encode m = b \/ (full_payload m /\ exists rest, rest <> [] /\ b =
     match m with
     | Ping s t p | Pong s t p =>
         selector m :: encode_container [PFix (le_bytes 8 s); PFix (le_bytes 2 (ext_u16 t)); PVar (p ++ rest)]
     | _ => []
     end)).
Proof.
  intros Hb H C1 C2. unfold decode_message in H. destruct b as [|sel b]; [discriminate|]. cbn [split_union] in H.
  apply bytes_ok_cons in Hb as [_ Hb].
  destruct (sel <=? 127) eqn:S; [|discriminate]. cbn [obind fst snd] in H. clear S.
  destruct sel as [|[[[?|?|]|[?|?|]|]|[[?|?|]|[?|?|]|]|]]; try discriminate H.
  (* the order of the cases is that of the binary numbers *)
  - apply ping_inv in H as (s & t & p & -> & Hs & Ht & ->); [|assumption].
    split. { cbn [message_ok]. split; [assumption|]. split; [assumption|]. unfold blen. rewrite firstn_length; clear; lia. }
    destruct (Nat.le_gt_cases (length p) 1100) as [L|L].
    + left. unfold encode_message. cbn [selector encode_body]. rewrite firstn_all2 by assumption. reflexivity.
    + right. split; [cbn [full_payload]; unfold blen; rewrite firstn_length; clear - L; lia|]. exists (skipn 1100 p). split.
      * intros X. apply (f_equal (@length N)) in X. rewrite skipn_length in X. cbn [length] in X. clear - X L. lia.
      * rewrite firstn_skipn. reflexivity.
  - (* 7 accept *) unfold decode_accept in H. destruct (decode_container _ b) as [items| |] eqn:D; try discriminate.
    cbn [obind] in H. destruct (cont2 _ _ _ _ Hb D) as (x & y & -> & C & Hx & Hy & _).
    destruct (decode_uint 2 x) as [i| |] eqn:D1; try discriminate. cbn [obind] in H. injection H as <-.
    apply decode_uint_canonical in D1 as (-> & B1); [|assumption]. split; [exact B1|]. left.
    unfold encode_message. cbn [selector encode_body]. f_equal. exact C.
  - (* 5 content *) unfold decode_content in H. destruct b as [|s2 b]; [discriminate|]. cbn [split_union] in H.
    apply bytes_ok_cons in Hb as [_ Hb].
    destruct (s2 <=? 127) eqn:S; [|discriminate]. cbn [obind fst snd] in H. clear S.
    destruct s2 as [|[?|[?|?|]|]]; try discriminate H.
    + destruct (decode_uint 2 b) as [i| |] eqn:D1; try discriminate. cbn [obind] in H. injection H as <-.
      apply decode_uint_canonical in D1 as (-> & B1); [|assumption]. split; [exact B1|]. left. reflexivity.
    + destruct (decode_var_list None b) as [l| |] eqn:D; try discriminate. cbn [obind] in H.
      destruct (map_o dec_content l) as [es| |] eqn:M; try discriminate. cbn [obind] in H. injection H as <-.
      apply decode_var_list_canonical in D as (D & _); [|assumption]. split; [exact I|]. left.
      unfold encode_message. cbn [selector encode_body]. f_equal. f_equal.
      rewrite (map_o_inv dec_content enr_rlp l es); [exact D|intros; auto|exact M].
    + injection H as <-. split; [exact I|]. left. reflexivity.
  - (* 3 nodes *) unfold decode_nodes in H. destruct (decode_container _ b) as [items| |] eqn:D; try discriminate.
    cbn [obind] in H. destruct (cont2 _ _ _ _ Hb D) as (x & y & -> & C & Hx & Hy & _).
    destruct (decode_uint 1 x) as [t| |] eqn:D1; try discriminate. cbn [obind] in H.
    destruct (decode_var_list None y) as [l| |] eqn:D2; try discriminate. cbn [obind] in H.
    destruct (map_o dec_nodes l) as [es| |] eqn:M; try discriminate. cbn [obind] in H. injection H as <-.
    apply decode_uint_canonical in D1 as (-> & B1); [|assumption].
    apply decode_var_list_canonical in D2 as (D2 & _); [|assumption]. split; [exact B1|]. left.
    unfold encode_message. cbn [selector encode_body]. f_equal.
    rewrite (map_o_inv dec_nodes enr_rlp l es); [|intros; auto|exact M]. rewrite D2. exact C.
  - (* 6 offer *) unfold decode_offer in H. destruct (decode_container _ b) as [items| |] eqn:D; try discriminate.
    cbn [obind] in H. destruct (cont1 _ _ _ Hb D) as (x & -> & C & Hx & _).
    destruct (decode_var_list None x) as [l| |] eqn:D2; try discriminate. cbn [obind] in H. injection H as <-.
    apply decode_var_list_canonical in D2 as (D2 & _); [|assumption]. split; [exact I|]. left.
    unfold encode_message. cbn [selector encode_body]. f_equal. rewrite D2. exact C.
  - (* 4 find content *) unfold decode_find_content in H. destruct (decode_container _ b) as [items| |] eqn:D; try discriminate.
    cbn [obind] in H. destruct (cont1 _ _ _ Hb D) as (x & -> & C & Hx & _). injection H as <-.
    split; [exact I|]. left. unfold encode_message. cbn [selector encode_body]. f_equal. exact C.
  - (* 2 find nodes *) unfold decode_find_nodes in H. destruct (decode_container _ b) as [items| |] eqn:D; try discriminate.
    cbn [obind] in H. destruct (cont1 _ _ _ Hb D) as (x & -> & C & Hx & _).
    destruct (decode_fixed_list 2 None x) as [l| |] eqn:D2; try discriminate. cbn [obind] in H.
    destruct (map_o (decode_uint 2) l) as [ds| |] eqn:M; try discriminate. cbn [obind] in H. injection H as <-.
    apply decode_fixed_list_canonical in D2 as (D2 & F & _); [|lia]. subst x.
    assert (Hl : forall z, In z l -> bytes_ok z).
    { clear - Hx. induction l as [|z l IH]; [intros ? []|]. cbn in Hx. apply bytes_ok_app in Hx as [X Y].
      intros w [<-|W]; auto. }
    split.
    + cbn. apply (map_o_Forall (decode_uint 2) _ l); [|exact M]. intros z y Hz Hd.
      apply decode_uint_canonical in Hd as (_ & B); [exact B|auto].
    + left. unfold encode_message. cbn [selector encode_body]. f_equal.
      rewrite (map_o_inv (decode_uint 2) (le_bytes 2) l ds); [exact C| |exact M].
      intros z y Hz Hd. apply decode_uint_canonical in Hd as (-> & _); [reflexivity|auto].
  - (* 1 pong *) apply ping_inv in H as (s & t & p & -> & Hs & Ht & ->); [|assumption].
    split. { cbn [message_ok]. split; [assumption|]. split; [assumption|]. unfold blen. rewrite firstn_length; clear; lia. }
    destruct (Nat.le_gt_cases (length p) 1100) as [L|L].
    + left. unfold encode_message. cbn [selector encode_body]. rewrite firstn_all2 by assumption. reflexivity.
    + right. split; [cbn [full_payload]; unfold blen; rewrite firstn_length; clear - L; lia|]. exists (skipn 1100 p). split.
      * intros X. apply (f_equal (@length N)) in X. rewrite skipn_length in X. cbn [length] in X. clear - X L. lia.
      * rewrite firstn_skipn. reflexivity.
Qed.

Ltac np := cbn [obind]; try congruence.
Theorem message_no_panic b :
  (forall x, dec_nodes x <> Panic) -> (forall x, dec_content x <> Panic) -> decode b <> Panic.
Proof.
  intros P1 P2. unfold decode_message, split_union. destruct b as [|sel b]; [discriminate|].
  destruct (sel <=? 127); np. cbn [fst snd].
  assert (HP : forall k, decode_ping (E:=E) k b <> Panic).
  { intros k. unfold decode_ping. pose proof (decode_container_no_panic [Some 8; Some 2; None] b).
    destruct (decode_container _ b) as [[|s [|t [|p [|? ?]]]]| |]; np.
    pose proof (decode_uint_no_panic 8 s). destruct (decode_uint 8 s); np.
    pose proof (decode_uint_no_panic 2 t). destruct (decode_uint 2 t); np. }
  destruct sel as [|[[[?|?|]|[?|?|]|]|[[?|?|]|[?|?|]|]|]]; try discriminate; try apply HP.
  - unfold decode_accept. pose proof (decode_container_no_panic [Some 2; None] b).
    destruct (decode_container _ b) as [[|s [|t [|? ?]]]| |]; np.
    pose proof (decode_uint_no_panic 2 s). destruct (decode_uint 2 s); np.
  - unfold decode_content, split_union. destruct b as [|s2 b]; [discriminate|]. destruct (s2 <=? 127); np. cbn [fst snd].
    destruct s2 as [|[?|[?|?|]|]]; try discriminate.
    + pose proof (decode_uint_no_panic 2 b). destruct (decode_uint 2 b); np.
    + pose proof (decode_var_list_no_panic None b). destruct (decode_var_list None b) as [l| |]; np.
      pose proof (map_o_no_panic dec_content l P2). destruct (map_o dec_content l); np.
  - unfold decode_nodes. pose proof (decode_container_no_panic [Some 1; None] b).
    destruct (decode_container _ b) as [[|s [|t [|? ?]]]| |]; np.
    pose proof (decode_uint_no_panic 1 s). destruct (decode_uint 1 s); np.
    pose proof (decode_var_list_no_panic None t). destruct (decode_var_list None t) as [l| |]; np.
    pose proof (map_o_no_panic dec_nodes l P1). destruct (map_o dec_nodes l); np.
  - unfold decode_offer. pose proof (decode_container_no_panic [None] b).
    destruct (decode_container _ b) as [[|s [|? ?]]| |]; np.
    pose proof (decode_var_list_no_panic None s). destruct (decode_var_list None s) as [l| |]; np.
  - unfold decode_find_content. pose proof (decode_container_no_panic [None] b).
    destruct (decode_container _ b) as [[|s [|? ?]]| |]; np.
  - unfold decode_find_nodes. pose proof (decode_container_no_panic [None] b).
    destruct (decode_container _ b) as [[|s [|? ?]]| |]; np.
    pose proof (decode_fixed_list_no_panic 2 None s). destruct (decode_fixed_list 2 None s) as [l| |]; np.
    pose proof (map_o_no_panic (decode_uint 2) l (decode_uint_no_panic 2)). destruct (map_o (decode_uint 2) l); np.
Qed.

(** * Sizes *)
Lemma pop_loop_prefix max_size fuel : forall es,
  exists rest, es = pop_loop enr_rlp fuel max_size es ++ rest /\
    ((fuel >= length es)%nat -> blen (encode_var_list (map enr_rlp (pop_loop enr_rlp fuel max_size es))) <= max_size) /\
    (rest = [] \/ exists e rest', rest = e :: rest' /\
       max_size < blen (encode_var_list (map enr_rlp (pop_loop enr_rlp fuel max_size es ++ [e])))).
Proof.
  induction fuel as [|f IH]; intros es.
  - exists []. cbn [pop_loop]. rewrite app_nil_r. split; [reflexivity|]. split; [|left; reflexivity].
    intros H. destruct es; [change (0 <= max_size); apply N.le_0_l|cbn in H; lia].
  - cbn [pop_loop]. destruct (max_size <? _) eqn:L.
    + apply N.ltb_lt in L. assert (Dn : es = [] \/ es <> []) by (destruct es; [left; reflexivity|right; discriminate]).
      destruct Dn as [->|Hne].
      * change (max_size < 0) in L. lia.
      * destruct (IH (removelast es)) as (rest & R1 & R2 & R3).
        destruct (exists_last Hne) as (es' & last & Hes).
        rewrite Hes in *. rewrite removelast_last in *.
        exists (rest ++ [last]). rewrite app_assoc, <- R1. split; [reflexivity|]. split.
        -- intros H. apply R2. rewrite app_length in H. cbn in H. lia.
        -- right. destruct R3 as [->|(e & rest' & -> & R3)].
           ++ exists last, []. split; [reflexivity|]. rewrite app_nil_r in R1. rewrite <- R1. exact L.
           ++ exists e, (rest' ++ [last]). split; [reflexivity|assumption].
    + exists []. rewrite app_nil_r. apply N.ltb_ge in L. split; [reflexivity|]. split; [intros _; assumption|left; reflexivity].
Qed.

Lemma pop_spec es max_size : exists rest,
  es = pop_while_ssz_bytes_len_gt enr_rlp es max_size ++ rest /\
  blen (encode_var_list (map enr_rlp (pop_while_ssz_bytes_len_gt enr_rlp es max_size))) <= max_size /\
  (rest = [] \/ exists e rest', rest = e :: rest' /\
       max_size < blen (encode_var_list (map enr_rlp (pop_while_ssz_bytes_len_gt enr_rlp es max_size ++ [e])))).
Proof.
  destruct (pop_loop_prefix max_size (length es) es) as (rest & H1 & H2 & H3). exists rest.
  split; [exact H1|]. split; [apply H2; constructor|exact H3].
Qed.

Lemma nodes_len t es : blen (encode (Nodes t es)) = 6 + blen (encode_var_list (map enr_rlp es)).
Proof.
  unfold encode_message. cbn [selector encode_body]. rewrite blen_cons, encode_container_len.
  cbn [heads_len part_head_len tails]. rewrite app_nil_r, le_blen. lia.
Qed.
Lemma content_enrs_len es : blen (encode (Content (ContentEnrs es))) = 2 + blen (encode_var_list (map enr_rlp es)).
Proof. unfold encode_message. cbn [selector encode_body]. rewrite !blen_cons. lia. Qed.

Lemma beqb_neq x y : negb (beqb x y) = true <-> x <> y.
Proof. rewrite Bool.negb_true_iff. apply beqb_false. Qed.

Lemma find_nodes_reply node_id source found :
  exists es rest, handle_find_nodes enr_rlp node_id source found = Nodes 1 es /\
    filter (fun e => negb (beqb (node_id e) source)) found = es ++ rest /\
    blen (encode (Nodes 1 es)) <= packet_room /\
    (rest = [] \/ exists e rest', rest = e :: rest' /\ packet_room < blen (encode (Nodes 1 (es ++ [e])))) /\
    Forall (fun e => node_id e <> source) es.
Proof.
  unfold handle_find_nodes. set (l := filter _ _). destruct (pop_spec l max_nodes_enrs_size) as (rest & H1 & H2 & H3).
  eexists _, rest. split; [reflexivity|]. split; [exact H1|].
  change packet_room with 1171. change max_nodes_enrs_size with 1165 in *.
  split; [rewrite nodes_len; lia|]. split.
  - destruct H3 as [->|(e & r & -> & H3)]; [left; reflexivity|right]. exists e, r. split; [reflexivity|].
    rewrite nodes_len. lia.
  - apply Forall_forall. intros e He. assert (He' : In e l) by (rewrite H1; apply in_or_app; left; exact He).
    apply filter_In in He' as [_ He']. apply beqb_neq. exact He'.
Qed.
Lemma find_content_reply node_id source found :
  exists es rest, find_content_enrs enr_rlp node_id source true found = Content (ContentEnrs es) /\
    filter (fun e => negb (beqb (node_id e) source)) found = es ++ rest /\
    blen (encode (Content (ContentEnrs es))) <= packet_room /\
    (rest = [] \/ exists e rest', rest = e :: rest' /\ packet_room - 4 < blen (encode (Content (ContentEnrs (es ++ [e]))))) /\
    Forall (fun e => node_id e <> source) es.
Proof.
  unfold find_content_enrs. set (l := filter _ _). destruct (pop_spec l max_content_payload_size) as (rest & H1 & H2 & H3).
  eexists _, rest. split; [reflexivity|]. split; [exact H1|].
  change packet_room with 1171. change max_content_payload_size with 1165 in *.
  split; [rewrite content_enrs_len; lia|]. split.
  - destruct H3 as [->|(e & r & -> & H3)]; [left; reflexivity|right]. exists e, r. split; [reflexivity|].
    rewrite content_enrs_len. lia.
  - apply Forall_forall. intros e He. assert (He' : In e l) by (rewrite H1; apply in_or_app; left; exact He).
    apply filter_In in He' as [_ He']. apply beqb_neq. exact He'.
Qed.
Lemma inline_reply content m : inline_content_reply (E:=E) content = Some m ->
  m = Content (ContentBytes content) /\ blen (encode m) <= packet_room.
Proof.
  unfold inline_content_reply. destruct (N.leb_spec (blen content) max_content_payload_size); [|discriminate].
  intros [= <-]. split; [reflexivity|]. unfold encode_message. cbn [selector encode_body]. rewrite !blen_cons.
  change packet_room with 1171. change max_content_payload_size with 1165 in *. lia.
Qed.
End P.
