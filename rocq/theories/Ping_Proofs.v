From Verif Require Import Base.
From Verif Require Import Ssz_Model Ssz_Proofs Wire_Model Wire_Spec Wire_Proofs Keys_Model Keys_Proofs Keys_Props.
From Verif Require Import StateContent_Model StateContent_Proofs KBucket_Model Ping_Model Ping_Spec.

(** ** Strings *)
Lemma utf8_app n : forall a b, (length a <= n)%nat -> utf8 a = true -> utf8 (a ++ b) = utf8 b.
Proof.
  induction n as [|n IH]; intros [|x a] b L U; cbn [length] in L; try (reflexivity || lia).
  cbn [app utf8] in *. destruct (x <? 128); [apply IH; [lia|exact U]|].
  destruct ((194 <=? x) && (x <=? 223)).
  { destruct a as [|y a]; [discriminate|]. cbn [app length] in *. apply andb_true_iff in U as [C U]. rewrite C, IH by (exact U || lia). reflexivity. }
  destruct ((224 <=? x) && (x <=? 239)).
  { destruct a as [|y [|z a]]; [discriminate|discriminate|]. cbn [app length] in *. apply andb_true_iff in U as [C U].
    apply andb_true_iff in C as [C C4]. apply andb_true_iff in C as [C C3]. apply andb_true_iff in C as [C1 C2].
    rewrite C1, C2, C3, C4, IH by (exact U || lia). reflexivity. }
  destruct ((240 <=? x) && (x <=? 244)); [|discriminate].
  destruct a as [|y [|z [|w a]]]; try discriminate. cbn [app length] in *. apply andb_true_iff in U as [C U].
  apply andb_true_iff in C as [C C5]. apply andb_true_iff in C as [C C4]. apply andb_true_iff in C as [C C3]. apply andb_true_iff in C as [C1 C2].
  rewrite C1, C2, C3, C4, C5, IH by (exact U || lia). reflexivity.
Qed.
Lemma utf8_cat a b : utf8 a = true -> utf8 b = true -> utf8 (a ++ b) = true.
Proof. intros A B. rewrite (utf8_app (length a)); [exact B|lia|exact A]. Qed.
Lemma utf8_ascii x b : x < 128 -> utf8 b = true -> utf8 (x :: b) = true.
Proof. intros L B. cbn [utf8]. apply N.ltb_lt in L. rewrite L. exact B. Qed.

Lemma split_none c s : ~ In c s -> split c s = [s].
Proof.
  induction s as [|x s IH]; intros H; [reflexivity|]. cbn [split]. destruct (x =? c) eqn:E.
  - apply N.eqb_eq in E. exfalso. apply H. left. exact E.
  - rewrite IH; [reflexivity|]. intros I. apply H. right. exact I.
Qed.
Lemma split_app c a b : ~ In c a -> split c (a ++ c :: b) = a :: split c b.
Proof.
  induction a as [|x a IH]; intros H; cbn [app split]; [rewrite N.eqb_refl; reflexivity|]. destruct (x =? c) eqn:E.
  - apply N.eqb_eq in E. exfalso. apply H. left. exact E.
  - rewrite IH; [reflexivity|]. intros I. apply H. right. exact I.
Qed.
Fixpoint join (c : N) (l : list bytes) : bytes :=
  match l with
  | [] => []
  | x :: r => match r with [] => x | _ => x ++ c :: join c r end
  end.
Lemma split_ne c s : split c s <> [].
Proof. destruct s as [|x s]; cbn [split]; [discriminate|]. destruct (x =? c); [discriminate|]. destruct (split c s); discriminate. Qed.
Lemma split_join c s : s = join c (split c s) /\ Forall (fun p => ~ In c p) (split c s).
Proof.
  induction s as [|x s [IH F]]; cbn [split].
  - split; [reflexivity|]. constructor; [intros []|constructor].
  - pose proof (split_ne c s) as N. destruct (x =? c) eqn:E.
    + apply N.eqb_eq in E. subst x. split.
      * cbn [join]. destruct (split c s) as [|h t]; [congruence|]. cbn [app]. f_equal. exact IH.
      * constructor; [intros []|exact F].
    + apply N.eqb_neq in E. destruct (split c s) as [|h t]; [congruence|]. inversion F as [|? ? Fh Ft]. subst. split.
      * destruct t as [|h' t]; cbn [join app] in *; f_equal; exact IH.
      * constructor; [|exact Ft]. intros [J|J]; [congruence|exact (Fh J)].
Qed.
Lemma split_once_app c a b : ~ In c a -> split_once c (a ++ c :: b) = Some (a, b).
Proof.
  induction a as [|x a IH]; intros H; cbn [app split_once]; [rewrite N.eqb_refl; reflexivity|]. destruct (x =? c) eqn:E.
  - apply N.eqb_eq in E. exfalso. apply H. left. exact E.
  - rewrite IH; [reflexivity|]. intros I. apply H. right. exact I.
Qed.
Lemma split_once_inv c s a b : split_once c s = Some (a, b) -> s = a ++ c :: b /\ ~ In c a.
Proof.
  revert a b. induction s as [|x s IH]; intros a b H; cbn [split_once] in H; [discriminate|]. destruct (x =? c) eqn:E.
  - apply N.eqb_eq in E. injection H as <- <-. subst x. split; [reflexivity|intros []].
  - apply N.eqb_neq in E. destruct (split_once c s) as [[u v]|]; cbn [option_map fst snd] in H; [|discriminate].
    injection H as <- <-. destruct (IH u v eq_refl) as [-> I]. split; [reflexivity|]. intros [J|J]; [congruence|exact (I J)].
Qed.
Lemma rsplit_app c a b : ~ In c b -> rsplit_once c (a ++ c :: b) = Some (a, b).
Proof.
  intros H. unfold rsplit_once. rewrite rev_app_distr. cbn [rev]. rewrite <- app_assoc. cbn [app].
  rewrite split_once_app by (rewrite <- in_rev; exact H). cbn [option_map fst snd]. rewrite !rev_involutive. reflexivity.
Qed.
Lemma rsplit_inv c s a b : rsplit_once c s = Some (a, b) -> s = a ++ c :: b /\ ~ In c b.
Proof.
  unfold rsplit_once. destruct (split_once c (rev s)) as [[u v]|] eqn:E; cbn [option_map fst snd]; [|discriminate].
  intros [= <- <-]. apply split_once_inv in E as [E I]. rewrite <- in_rev. split; [|exact I].
  rewrite <- (rev_involutive s), E, rev_app_distr. cbn [rev]. rewrite <- app_assoc. reflexivity.
Qed.

Lemma in_app_cons (c d : N) a b : In c (a ++ d :: b) <-> In c a \/ d = c \/ In c b.
Proof. rewrite in_app_iff. cbn [In]. tauto. Qed.
Lemma parse_print i : readable i -> short i -> parse_info (print_info i) = Ok i.
Proof.
  intros (P & C & O & A) L. unfold parse_info. apply N.ltb_ge in L. rewrite L. unfold print_info.
  assert (Pn := P (ci_name i) ltac:(cbn; tauto)). assert (Pv := P (ci_version i) ltac:(cbn; tauto)). assert (Pc := P (ci_commit i) ltac:(cbn; tauto)).
  assert (Po := P (ci_os i) ltac:(cbn; tauto)). assert (Pa := P (ci_arch i) ltac:(cbn; tauto)). assert (Pl := P (ci_lang i) ltac:(cbn; tauto)).
  rewrite split_app by apply Pn.
  replace (ci_version i ++ dash :: ci_commit i ++ slash :: ci_os i ++ dash :: ci_arch i ++ slash :: ci_lang i)
    with ((ci_version i ++ dash :: ci_commit i) ++ slash :: (ci_os i ++ dash :: ci_arch i) ++ slash :: ci_lang i)
    by (rewrite <- !app_assoc; cbn [app]; rewrite <- ?app_assoc; reflexivity).
  rewrite split_app.
  2:{ rewrite in_app_cons. intros [H|[H|H]]; [exact (proj1 Pv H)|discriminate H|exact (proj1 Pc H)]. }
  rewrite split_app.
  2:{ rewrite in_app_cons. intros [H|[H|H]]; [exact (proj1 Po H)|discriminate H|exact (proj1 Pa H)]. }
  rewrite split_none by apply Pl. rewrite rsplit_app by exact C. rewrite split_app by exact O. rewrite split_none by exact A.
  destruct i; reflexivity.
Qed.
Definition cut_ok (i : client_info) : Prop :=
  (forall part, In part [ci_name i; ci_version i; ci_commit i; ci_os i; ci_arch i; ci_lang i] -> ~ In slash part) /\
  ~ In dash (ci_commit i) /\ ~ In dash (ci_os i) /\ ~ In dash (ci_arch i).
Lemma parse_inv s i : parse_info s = Ok i -> s = print_info i /\ blen s <= 200 /\ cut_ok i.
Proof.
  unfold parse_info. destruct (200 <? blen s) eqn:L; [discriminate|]. apply N.ltb_ge in L.
  destruct (split slash s) as [|p0 [|p1 [|p2 [|p3 [|]]]]] eqn:S; try discriminate.
  destruct (rsplit_once dash p1) as [[version commit]|] eqn:R; [|discriminate].
  destruct (split dash p2) as [|os [|arch [|]]] eqn:D; try discriminate.
  intros [= <-]. destruct (split_join slash s) as [J F]. rewrite S in J, F. cbn [join] in J.
  destruct (split_join dash p2) as [J2 F2]. rewrite D in J2, F2. cbn [join] in J2.
  apply rsplit_inv in R as [J1 C]. unfold print_info. cbn [ci_name ci_version ci_commit ci_os ci_arch ci_lang].
  inversion F as [|? ? F0 Fa]. subst. inversion Fa as [|? ? F1 Fb]. subst. inversion Fb as [|? ? F3 Fc]. subst. inversion Fc as [|? ? F4 _]. subst.
  inversion F2 as [|? ? G0 Ga]. subst. inversion Ga as [|? ? G1 _]. subst. rewrite in_app_cons in F1, F3.
  split; [rewrite <- !app_assoc; cbn [app]; rewrite <- ?app_assoc; reflexivity|]. split; [exact L|]. split; [|cbn; tauto].
  cbn [In ci_name ci_version ci_commit ci_os ci_arch ci_lang]. intros part Q. intuition (subst; tauto).
Qed.

(** ** Values *)
Lemma enc_vfv a f b : encode_container [PVar a; PFix f; PVar b] = le_bytes 4 (4 + (blen f + 4)) ++ f ++ le_bytes 4 (4 + (blen f + 4) + blen a) ++ a ++ b.
Proof. unfold encode_container. cbn [heads heads_len part_head_len tails]. rewrite !N.add_0_r, !app_nil_r. rewrite <- !app_assoc. reflexivity. Qed.
Lemma container3_len a f b : blen f = 32 -> blen (encode_container [PVar a; PFix f; PVar b]) = 40 + blen a + blen b.
Proof. intros F. rewrite encode_container_len. cbn [heads_len part_head_len tails]. rewrite blen_app, app_nil_r, F. lia. Qed.
Lemma le32 r : blen (le_bytes 32 r) = 32.
Proof. unfold blen. rewrite le_bytes_length. reflexivity. Qed.
Lemma ext_list_len c : blen (concat (map (fun t => le_bytes 2 (ext_u16 t)) c)) = 2 * blen c.
Proof. induction c as [|t c IH]; [reflexivity|]. cbn [map concat]. rewrite blen_app, IH, blen_cons. unfold blen at 1. rewrite le_bytes_length. lia. Qed.
Lemma ext_back l : Forall ext_ok l -> map ext_of_u16 (map ext_u16 l) = l.
Proof.
  induction 1 as [|t l H F IH]; [reflexivity|]. cbn [map]. rewrite IH. f_equal. destruct t; try reflexivity. cbn [ext_ok ext_u16] in *.
  unfold ext_of_u16. destruct H as (_ & H0 & H1 & H2 & H3). apply N.eqb_neq in H0, H1, H2, H3. rewrite H0, H1, H2, H3. reflexivity.
Qed.
Lemma ext_u16_of n : n < 65536 -> ext_u16 (ext_of_u16 n) = n /\ ext_ok (ext_of_u16 n).
Proof.
  intros L. unfold ext_of_u16. destruct (n =? 0) eqn:E0; [cbn; split; [lia|exact Logic.I]|]. destruct (n =? 1) eqn:E1; [cbn; split; [lia|exact Logic.I]|].
  destruct (n =? 2) eqn:E2; [cbn; split; [lia|exact Logic.I]|]. destruct (n =? 65535) eqn:E3; [cbn; split; [lia|exact Logic.I]|].
  apply N.eqb_neq in E0, E1, E2, E3. cbn. repeat split; auto.
Qed.
Lemma cont_ascii x : x < 128 -> cont x = false.
Proof. intros L. unfold cont. apply andb_false_iff. left. apply N.leb_gt. exact L. Qed.
Lemma utf8_cut n x b : x < 128 -> forall a, (length a <= n)%nat -> utf8 (a ++ x :: b) = true -> utf8 a = true /\ utf8 b = true.
Proof.
  intros X. pose proof (cont_ascii x X) as CX.
  induction n as [|n IH]; intros [|y a] L U; cbn [length] in L; try lia.
  1,2: cbn [app utf8] in U; apply N.ltb_lt in X; rewrite X in U; split; [reflexivity|exact U].
  cbn [app utf8] in *. destruct (y <? 128); [apply IH; [lia|exact U]|].
  destruct ((194 <=? y) && (y <=? 223)).
  { destruct a as [|z a]; cbn [app length] in *; apply andb_true_iff in U as [C U]; [congruence|].
    rewrite C. apply IH; [lia|exact U]. }
  destruct ((224 <=? y) && (y <=? 239)).
  { destruct a as [|z [|w a]]; cbn [app length] in *.
    - destruct b as [|b1 b]; [discriminate|]. rewrite CX in U. discriminate.
    - rewrite CX, andb_false_r in U. discriminate.
    - apply andb_true_iff in U as [C U]. rewrite C. apply IH; [lia|exact U]. }
  destruct ((240 <=? y) && (y <=? 244)); [|discriminate].
  destruct a as [|z [|w [|v a]]]; cbn [app length] in *.
  - destruct b as [|b1 [|b2 b]]; try discriminate. rewrite CX in U. discriminate.
  - destruct b as [|b1 b]; try discriminate. rewrite CX, andb_false_r in U. discriminate.
  - rewrite CX, andb_false_r in U. discriminate.
  - apply andb_true_iff in U as [C U]. rewrite C. apply IH; [lia|exact U].
Qed.
Lemma utf8_parts a x b : x < 128 -> utf8 (a ++ x :: b) = true -> utf8 a = true /\ utf8 b = true.
Proof. intros X. exact (utf8_cut (length a) x b X a (le_n _)). Qed.
Lemma print_utf8 i : utf8 (print_info i) = true <-> forall part, In part [ci_name i; ci_version i; ci_commit i; ci_os i; ci_arch i; ci_lang i] -> utf8 part = true.
Proof.
  unfold print_info. split.
  - intros U. assert (Sl : slash < 128) by reflexivity. assert (Da : dash < 128) by reflexivity.
    apply utf8_parts in U as [U1 U]; [|exact Sl]. apply utf8_parts in U as [U2 U]; [|exact Da]. apply utf8_parts in U as [U3 U]; [|exact Sl].
    apply utf8_parts in U as [U4 U]; [|exact Da]. apply utf8_parts in U as [U5 U6]; [|exact Sl].
    cbn [In]. intros part Q. intuition (subst; assumption).
  - intros P. cbn [In] in P.
    repeat (apply utf8_cat; [apply P; tauto|]; apply utf8_ascii; [reflexivity|]). apply P. tauto.
Qed.
Lemma readable_iff i : readable i <-> cut_ok i /\ utf8 (print_info i) = true.
Proof.
  rewrite print_utf8. unfold readable, cut_ok. split.
  - intros (P & Q). split; [split; [|exact Q]|]; intros part J; apply (P part J).
  - intros ((P & Q) & U). split; [|exact Q]. intros part J. split; [exact (P part J)|exact (U part J)].
Qed.
Lemma print_ne i : print_info i <> [].
Proof. unfold print_info. destruct (ci_name i); discriminate. Qed.

Lemma extension_len v : value_ok v -> blen (encode_extension v) <= 1040.
Proof.
  destruct v as [i r c|r|r n|c m]; cbn [value_ok encode_extension].
  - intros (_ & _ & Lc & _). rewrite container3_len by apply le32. rewrite ext_list_len. unfold blen at 1. rewrite firstn_length. lia.
  - intros _. unfold encode_container. cbn [heads heads_len part_head_len tails]. rewrite !app_nil_r, le32. lia.
  - intros _. unfold encode_container. cbn [heads heads_len part_head_len tails]. rewrite !app_nil_r, blen_app, le32. unfold blen. rewrite le_bytes_length. lia.
  - intros (_ & L). rewrite encode_container_len. cbn [heads_len part_head_len tails]. rewrite app_nil_r. unfold blen at 1. rewrite le_bytes_length. lia.
Qed.
Lemma payload_whole v : value_ok v -> payload_of v = encode_extension v.
Proof. intros H. apply extension_len in H. unfold payload_of, decode_custom_payload. apply firstn_all2. unfold blen in H. lia. Qed.
Lemma caps_ok c : blen c <= 400 -> Forall ext_ok c ->
  obind (decode_fixed_list 2 (Some 400) (concat (map (fun t => le_bytes 2 (ext_u16 t)) c))) (map_o (decode_uint 2)) = Ok (map ext_u16 c).
Proof.
  intros L F. rewrite decode_fixed_list_ok.
  - cbn [obind]. rewrite <- (map_map ext_u16 (le_bytes 2)). apply map_o_ok. intros y Hy. apply decode_uint_ok.
    apply in_map_iff in Hy as (t & <- & Ht). rewrite Forall_forall in F. exact (ext_u16_bound t (F t Ht)).
  - lia.
  - apply Forall_forall. intros x Hx. apply in_map_iff in Hx as (t & <- & _). apply le_bytes_length.
  - unfold blen in *. rewrite map_length. exact L.
Qed.
Lemma caps_inv b c : bytes_ok b -> obind (decode_fixed_list 2 (Some 400) b) (map_o (decode_uint 2)) = Ok c ->
  blen c <= 400 /\ Forall (fun n => n < 65536) c /\ b = concat (map (le_bytes 2) c).
Proof.
  intros Hb H. apply obind_ok in H as (l & D & M). apply decode_fixed_list_canonical in D as (<- & F & L); [|lia].
  assert (Q : forall x y, In x l -> decode_uint 2 x = Ok y -> y < 256 ^ N.of_nat 2 /\ x = le_bytes 2 y).
  { intros x y Hx D. apply uint_inv in D; [exact D|]. unfold bytes_ok in *. rewrite Forall_forall in *. intros z Hz. apply Hb. apply in_concat. exists x. split; assumption. }
  assert (Mi : map (le_bytes 2) c = l).
  { apply (map_o_inv (decode_uint 2) (le_bytes 2) l c); [|exact M]. intros x y Hx D. symmetry. apply (Q x y Hx D). }
  split; [|split].
  - unfold blen in *. rewrite <- Mi, map_length in L. exact L.
  - apply (map_o_Forall (decode_uint 2) _ l c); [|exact M]. intros x y Hx D. apply (Q x y Hx D).
  - rewrite Mi. reflexivity.
Qed.
Lemma decode_encode v : value_ok v -> decode_extension (extension_type v) (encode_extension v) = Ok v.
Proof.
  intros V. pose proof (extension_len v V) as L. destruct v as [i r c|r|r n|c m]; cbn [value_ok extension_type decode_extension encode_extension] in *.
  - destruct V as (Hi & R & Lc & F).
    assert (S : firstn 200 (info_string i) = info_string i).
    { apply firstn_all2. destruct i as [i|]; [|cbn; lia]. destruct (Hi i eq_refl) as [_ Sh]. unfold short, blen in Sh. cbn [info_string]. lia. }
    rewrite S in *. unfold decode_capabilities.
    change (encode_container [PVar (info_string i); PFix (le_bytes 32 r); PVar (concat (map (fun t => le_bytes 2 (ext_u16 t)) c))])
      with (encode_container [part_of None (info_string i); part_of (Some 32) (le_bytes 32 r); part_of None (concat (map (fun t => le_bytes 2 (ext_u16 t)) c))]).
    rewrite container3_ok; [|exact Logic.I|apply le32|exact Logic.I|].
    2:{ cbn [part_of]. eapply N.le_lt_trans; [exact L|reflexivity]. }
    cbn [obind fst snd]. unfold decode_bytelist.
    assert (Ls : blen (info_string i) <= 200) by (rewrite <- S; unfold blen; rewrite firstn_length; lia).
    apply N.ltb_ge in Ls. rewrite Ls. cbn [obind]. rewrite uint_ok by exact R. cbn [obind]. rewrite caps_ok by assumption. cbn [obind].
    assert (U : utf8 (info_string i) = true).
    { destruct i as [i|]; [|reflexivity]. destruct (Hi i eq_refl) as [Re _]. apply readable_iff in Re. apply Re. }
    rewrite U. cbn [obind]. rewrite ext_back by exact F. destruct i as [i|]; cbn [info_string]; [|reflexivity].
    destruct (Hi i eq_refl) as [Re Sh]. pose proof (print_ne i) as Ne. pose proof (parse_print i Re Sh) as P.
    destruct (print_info i) as [|x s]; [congruence|]. rewrite P. reflexivity.
  - change (encode_container [PFix (le_bytes 32 r)]) with (encode_container [part_of (Some 32) (le_bytes 32 r)]).
    rewrite container1_ok; [|apply le32|eapply N.le_lt_trans; [exact L|reflexivity]]. cbn [obind]. rewrite uint_ok by exact V. reflexivity.
  - destruct V as [R Hn].
    change (encode_container [PFix (le_bytes 32 r); PFix (le_bytes 2 n)]) with (encode_container [part_of (Some 32) (le_bytes 32 r); part_of (Some 2) (le_bytes 2 n)]).
    rewrite container2_ok; [|apply le32|unfold fits, blen; rewrite le_bytes_length; reflexivity|eapply N.le_lt_trans; [exact L|reflexivity]].
    cbn [obind fst snd]. rewrite uint_ok by exact R. cbn [obind]. rewrite uint_ok by exact Hn. reflexivity.
  - destruct V as [R Hn].
    change (encode_container [PFix (le_bytes 2 c); PVar m]) with (encode_container [part_of (Some 2) (le_bytes 2 c); part_of None m]).
    rewrite container2_ok; [|unfold fits, blen; rewrite le_bytes_length; reflexivity|exact Logic.I|eapply N.le_lt_trans; [exact L|reflexivity]].
    cbn [obind fst snd]. rewrite uint_ok by exact R. cbn [obind]. unfold decode_bytelist. apply N.ltb_ge in Hn. rewrite Hn. reflexivity.
Qed.

Lemma decode_canonical t b v : bytes_ok b -> decode_extension t b = Ok v ->
  extension_type v = t /\ encode_extension v = b /\ value_ok v.
Proof.
  intros Hb D. destruct t as [| | | |n]; cbn [decode_extension] in D; [| | | |discriminate].
  - unfold decode_capabilities in D. apply obind_ok in D as ([[s r] c] & C & D). cbn [fst snd] in D.
    apply container3_inv in C as (_ & Fr & _ & Ec); [|exact Hb]. cbn [part_of fits] in Ec, Fr.
    assert (Bs : bytes_ok r /\ bytes_ok c).
    { rewrite <- Ec, enc_vfv, !bytes_ok_app in Hb. tauto. } destruct Bs as [Br Bc].
    apply obind_ok in D as (s' & D1 & D). apply bytelist_inv in D1 as [-> Ls].
    apply obind_ok in D as (r' & D1 & D). apply uint_inv in D1 as [Lr ->]; [|exact Br].
    apply obind_ok in D as (c' & D1 & D). apply caps_inv in D1 as (Lc & Fc & ->); [|exact Bc].
    destruct (utf8 s) eqn:U; cbn [obind] in D; [|discriminate].
    apply obind_ok in D as (i & D1 & D). injection D as <-.
    assert (Q : info_string i = s /\ forall i', i = Some i' -> readable i' /\ short i').
    { destruct s as [|x s].
      - injection D1 as <-. split; [reflexivity|discriminate].
      - apply omap_ok in D1 as (i' & P & <-). apply parse_inv in P as (P & L & Cut). cbn [info_string]. split; [congruence|].
        intros i0 [= <-]. split; [apply readable_iff; split; [exact Cut|rewrite <- P; exact U]|unfold short; rewrite <- P; exact L]. }
    destruct Q as [Q1 Q2]. cbn [extension_type encode_extension value_ok].
    assert (Me : map (fun t => le_bytes 2 (ext_u16 t)) (map ext_of_u16 c') = map (le_bytes 2) c').
    { rewrite map_map. apply map_ext_in. intros n Hn. rewrite Forall_forall in Fc. rewrite (proj1 (ext_u16_of n (Fc n Hn))). reflexivity. }
    split; [reflexivity|]. split.
    + rewrite Q1, Me, firstn_all2 by (unfold blen in Ls; lia). exact Ec.
    + split; [exact Q2|]. split; [exact Lr|]. split; [unfold blen in *; rewrite map_length; exact Lc|].
      apply Forall_forall. intros t Ht. apply in_map_iff in Ht as (n & <- & Hn). rewrite Forall_forall in Fc. exact (proj2 (ext_u16_of n (Fc n Hn))).
  - apply obind_ok in D as (x & C & D). apply container1_inv in C as [F E]; [|exact Hb]. cbn [part_of fits] in *.
    assert (Bx : bytes_ok x) by (rewrite <- E in Hb; unfold encode_container in Hb; cbn [heads tails heads_len part_head_len] in Hb; rewrite !app_nil_r in Hb; exact Hb).
    apply omap_ok in D as (r & D & <-). apply uint_inv in D as [Lr ->]; [|exact Bx]. split; [reflexivity|]. split; [exact E|exact Lr].
  - apply obind_ok in D as ([x y] & C & D). cbn [fst snd] in D. apply container2_inv in C as (F & G & E); [|exact Hb]. cbn [part_of fits] in *.
    assert (Bx : bytes_ok x /\ bytes_ok y) by (rewrite <- E in Hb; unfold encode_container in Hb; cbn [heads tails heads_len part_head_len] in Hb; rewrite !app_nil_r, bytes_ok_app in Hb; exact Hb).
    apply obind_ok in D as (r & D1 & D). apply uint_inv in D1 as [Lr ->]; [|apply Bx].
    apply omap_ok in D as (n & D & <-). apply uint_inv in D as [Ln ->]; [|apply Bx]. split; [reflexivity|]. split; [exact E|split; assumption].
  - apply obind_ok in D as ([x y] & C & D). cbn [fst snd] in D. apply container2_inv in C as (F & G & E); [|exact Hb]. cbn [part_of fits] in *.
    assert (Bx : bytes_ok x) by (rewrite <- E in Hb; unfold encode_container in Hb; cbn [heads tails heads_len part_head_len] in Hb; rewrite !bytes_ok_app in Hb; tauto).
    apply obind_ok in D as (c & D1 & D). apply uint_inv in D1 as [Lr ->]; [|exact Bx].
    apply omap_ok in D as (m & D & <-). apply bytelist_inv in D as [-> Lm]. split; [reflexivity|]. split; [exact E|split; assumption].
Qed.
Lemma no_panic t b : decode_extension t b <> Panic.
Proof.
  destruct t as [| | | |n]; cbn [decode_extension]; [| | | |discriminate].
  - unfold decode_capabilities. pose proof (container3_no_panic None (Some 32) None b) as C.
    destruct (container3 None (Some 32) None b) as [[[s r] c]| |]; cbn [obind fst snd]; try congruence. unfold decode_bytelist. destruct (_ <? _); cbn [obind]; [discriminate|].
    unfold decode_uint at 1. destruct (Nat.eqb _ _); cbn [obind]; [|discriminate].
    pose proof (decode_fixed_list_no_panic 2 (Some 400) c) as F. destruct (decode_fixed_list 2 (Some 400) c) as [l| |]; cbn [obind]; try congruence.
    assert (M : map_o (decode_uint 2) l <> Panic) by (apply map_o_no_panic; intros x; unfold decode_uint; destruct (Nat.eqb _ _); discriminate).
    destruct (map_o (decode_uint 2) l) as [c'| |]; cbn [obind]; try congruence. destruct (utf8 s); cbn [obind]; [|discriminate].
    destruct s as [|x s]; cbn [obind]; [discriminate|]. unfold parse_info. destruct (_ <? _); cbn [omap obind]; [discriminate|].
    destruct (split slash (x :: s)) as [|p0 [|p1 [|p2 [|p3 [|]]]]]; cbn; try discriminate. destruct (rsplit_once dash p1) as [[]|]; cbn; [|discriminate].
    destruct (split dash p2) as [|? [|? [|]]]; cbn; discriminate.
  - pose proof (container1_no_panic (Some 32) b) as C. destruct (container1 (Some 32) b); cbn [obind]; try congruence. unfold decode_uint. destruct (Nat.eqb _ _); discriminate.
  - pose proof (container2_no_panic (Some 32) (Some 2) b) as C. destruct (container2 (Some 32) (Some 2) b); cbn [obind]; try congruence. unfold decode_uint. destruct (Nat.eqb _ _); cbn [obind]; [|discriminate].
    destruct (Nat.eqb _ _); discriminate.
  - pose proof (container2_no_panic (Some 2) None b) as C. destruct (container2 (Some 2) None b); cbn [obind]; try congruence. unfold decode_uint. destruct (Nat.eqb _ _); cbn [obind]; [|discriminate].
    unfold decode_bytelist. destruct (_ <? _); discriminate.
Qed.
