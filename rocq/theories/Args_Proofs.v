(** Lemmas for C105. *)
From Coq Require Import String Ascii.
From Verif Require Import Base Hex_Model Hex_Spec Hex_Proofs Ping_Model Ping_Proofs Capacity_Model Trie_Model StateContent_Proofs Args_Model Args_Spec.

(** ** Numbers *)
Lemma parse_digits_snoc s : forall acc d, parse_digits acc (s ++ [48 + d]) =
  match parse_digits acc s with Some n => if d <? 10 then if n * 10 + d <? 2 ^ 64 then Some (n * 10 + d) else None else None | None => None end.
Proof.
  induction s as [|c s IH]; intros acc d; cbn [app parse_digits].
  - assert ((48 <=? 48 + d) && (48 + d <=? 57) = (d <? 10)) as ->.
    { replace (48 <=? 48 + d) with true by (symmetry; apply N.leb_le; lia). cbn [andb]. destruct (N.ltb_spec d 10); [apply N.leb_le|apply N.leb_gt]; lia. }
    destruct (d <? 10); [|reflexivity]. replace (48 + d - 48) with d by lia. cbv zeta. reflexivity.
  - destruct ((48 <=? c) && (c <=? 57)); [|reflexivity]. cbv zeta. destruct (_ <? 2 ^ 64); [|reflexivity]. apply IH.
Qed.
Lemma digits_parse s n : digits s n -> n < 2 ^ 64 -> parse_digits 0 s = Some n.
Proof.
  intros D. induction D as [d B|s n d D IH B]; intros L.
  - pose proof (parse_digits_snoc [] 0 d) as E. cbn [app parse_digits] in E. rewrite (proj2 (N.ltb_lt _ _) B) in E.
    rewrite (proj2 (N.ltb_lt (0 * 10 + d) (2 ^ 64))) in E by lia. cbn [parse_digits]. rewrite E. f_equal; lia.
  - rewrite parse_digits_snoc, IH by lia. rewrite (proj2 (N.ltb_lt _ _) B). rewrite (proj2 (N.ltb_lt (n * 10 + d) (2 ^ 64))) by lia. f_equal; lia.
Qed.
Lemma digits_not_nil s n : digits s n -> s <> [].
Proof. intros [d B|s' m d D B]; [discriminate|]. destruct s'; cbn; discriminate. Qed.
Lemma parse_digits_gen s : forall acc p n, (p = [] /\ acc = 0 \/ digits p acc) -> s <> [] \/ p <> [] -> parse_digits acc s = Some n -> acc < 2 ^ 64 -> digits (p ++ s) n /\ n < 2 ^ 64.
Proof.
  induction s as [|c s IH]; intros acc p n P Ne E L; cbn [parse_digits] in E.
  - injection E as <-. rewrite app_nil_r. split; [|exact L]. destruct P as [[-> _]|P]; [destruct Ne; congruence|exact P].
  - destruct ((48 <=? c) && (c <=? 57)) eqn:C; [|discriminate]. apply andb_prop in C as [C1 C2]. apply N.leb_le in C1, C2. cbv zeta in E.
    destruct (N.ltb_spec (acc * 10 + (c - 48)) (2 ^ 64)) as [L'|]; [|discriminate].
    assert (p ++ c :: s = (p ++ [48 + (c - 48)]) ++ s) as -> by (rewrite <- app_assoc; cbn; do 2 f_equal; lia).
    eapply IH; [|right; destruct p; cbn; discriminate|exact E|exact L'].
    right. destruct P as [[-> ->]|P].
    + replace (0 * 10 + (c - 48)) with (c - 48) by lia. cbn [app]. constructor. lia.
    + replace (acc * 10 + (c - 48)) with (10 * acc + (c - 48)) by lia. constructor; [exact P|lia].
Qed.
Lemma digits_chars s n : digits s n -> Forall (fun c => 48 <= c <= 57) s.
Proof. intros D. induction D; [repeat constructor; lia|]. apply Forall_app. split; [assumption|repeat constructor; lia]. Qed.
Lemma parse_digits_sound s n : s <> [] -> parse_digits 0 s = Some n -> digits s n /\ n < 2 ^ 64.
Proof. intros Nn E. exact (parse_digits_gen s 0 [] n (or_introl (conj eq_refl eq_refl)) (or_introl Nn) E eq_refl). Qed.
Lemma parse_u64_iff s n : parse_u64 s = Some n <-> number_text s n.
Proof.
  unfold parse_u64, number_text. split.
  - destruct s as [|c r]; [discriminate|]. destruct (N.eqb_spec c plus) as [->|Ne].
    + destruct r as [|c' r]; [discriminate|]. intros E.
      destruct (parse_digits_sound (c' :: r) n ltac:(discriminate) E) as [D L].
      split; [exact L|]. right. exists (c' :: r). split; [reflexivity|exact D].
    + intros E. destruct (parse_digits_sound (c :: r) n ltac:(discriminate) E) as [D L].
      split; [exact L|]. left. exact D.
  - intros [L [D|(r & -> & D)]].
    + pose proof (digits_chars _ _ D) as F. pose proof (digits_not_nil _ _ D) as Nn. pose proof (digits_parse _ _ D L) as P.
      destruct s as [|c r]; [congruence|]. pose proof (Forall_inv F) as B. destruct (N.eqb_spec c plus) as [->|_]; [unfold plus in B; lia|exact P].
    + change (43 =? plus) with true. cbv iota. pose proof (digits_not_nil _ _ D). destruct r; [congruence|]. apply digits_parse; assumption.
Qed.
Lemma number_text_chars s n c : number_text s n -> In c s -> c = 43 \/ 48 <= c <= 57.
Proof.
  intros [_ [D|(r & -> & D)]] I; apply digits_chars in D; rewrite Forall_forall in D.
  - right. exact (D _ I).
  - destruct I as [<-|I]; [left; reflexivity|right; exact (D _ I)].
Qed.
Lemma number_text_not_nil s n : number_text s n -> s <> [].
Proof. intros [_ [D|(r & -> & D)]]; [exact (digits_not_nil _ _ D)|discriminate]. Qed.
Lemma number_text_fun s n m : number_text s n -> number_text s m -> n = m.
Proof. rewrite <- !parse_u64_iff. congruence. Qed.
Lemma write_digits_digits fuel : forall n, n < 10 ^ N.of_nat (S fuel) -> digits (write_digits (S fuel) n) n.
Proof.
  induction fuel as [|fuel IH]; intros n L.
  - change (10 ^ N.of_nat 1) with 10 in L. cbn [write_digits]. rewrite (proj2 (N.ltb_lt _ _) L). cbn [app]. rewrite N.mod_small by assumption. constructor. exact L.
  - cbn [write_digits]. destruct (N.ltb_spec n 10) as [B|B].
    + cbn [app]. rewrite N.mod_small by assumption. constructor. exact B.
    + assert (n / 10 < 10 ^ N.of_nat (S fuel)) as L'.
      { apply N.div_lt_upper_bound; [lia|]. replace (10 * 10 ^ N.of_nat (S fuel)) with (10 ^ N.of_nat (S (S fuel))); [exact L|].
        rewrite (Nat2N.inj_succ (S fuel)), N.pow_succ_r'. reflexivity. }
      pose proof (digit_more _ _ (n mod 10) (IH _ L') ltac:(lia)) as D. replace (10 * (n / 10) + n mod 10) with n in D by lia. exact D.
Qed.
Lemma write_text n : n < 2 ^ 64 -> number_text (write n) n.
Proof.
  intros L. split; [exact L|]. left. unfold write. change 20%nat with (S 19). apply write_digits_digits.
  eapply N.lt_trans; [exact L|]. vm_compute. reflexivity.
Qed.

(** ** Separators *)
Lemma split_not_nil c s : split c s <> [].
Proof. destruct s as [|x s]; cbn [split]; [discriminate|]. destruct (x =? c); [discriminate|]. destruct (split c s); discriminate. Qed.
Lemma join_cons c p l : l <> [] -> join c (p :: l) = p ++ c :: join c l.
Proof. destruct l; [congruence|reflexivity]. Qed.
Lemma split_separated c s : separated c (split c s) s.
Proof.
  induction s as [|x s (Nn & E & F)]; [split; [discriminate|split; [reflexivity|repeat constructor; intros []]]|]. cbn [split].
  destruct (N.eqb_spec x c) as [->|Ne].
  - split; [discriminate|]. split; [rewrite join_cons by assumption; cbn [app]; congruence|constructor; [intros []|exact F]].
  - destruct (split c s) as [|h t]; [congruence|]. split; [discriminate|]. split.
    + rewrite E. destruct t; reflexivity.
    + constructor; [|exact (Forall_inv_tail F)]. intros [<-|I]; [congruence|]. exact (Forall_inv F I).
Qed.
Lemma split_no c p : ~ In c p -> split c p = [p].
Proof. induction p as [|x p IH]; intros H; [reflexivity|]. cbn [split]. destruct (N.eqb_spec x c) as [->|_]; [destruct H; left; reflexivity|]. rewrite IH; [reflexivity|]. intros I. apply H. right. exact I. Qed.
Lemma split_app' c p r : ~ In c p -> split c (p ++ c :: r) = p :: split c r.
Proof.
  induction p as [|x p IH]; intros H; cbn [app split]; [rewrite N.eqb_refl; reflexivity|].
  destruct (N.eqb_spec x c) as [->|_]; [destruct H; left; reflexivity|]. rewrite IH; [reflexivity|]. intros I. apply H. right. exact I.
Qed.
Lemma separated_split c l s : separated c l s -> split c s = l.
Proof.
  intros (Nn & -> & F). induction l as [|p l IH]; [congruence|]. destruct l as [|q l]; [exact (split_no _ _ (Forall_inv F))|].
  rewrite join_cons by discriminate. rewrite split_app' by exact (Forall_inv F). f_equal. apply IH; [discriminate|exact (Forall_inv_tail F)].
Qed.
Lemma separated_iff c l s : separated c l s <-> split c s = l.
Proof. split; [apply separated_split|intros <-; apply split_separated]. Qed.
Lemma split_two c s a b : split c s = [a; b] <-> s = a ++ c :: b /\ ~ In c a /\ ~ In c b.
Proof.
  rewrite <- separated_iff. unfold separated. cbn [join]. split.
  - intros (_ & E & F). split; [exact E|]. split; [exact (Forall_inv F)|exact (Forall_inv (Forall_inv_tail F))].
  - intros (E & A & B). split; [discriminate|]. split; [exact E|]. repeat constructor; assumption.
Qed.
Lemma split_once_iff c s a b : split_once c s = Some (a, b) <-> s = a ++ c :: b /\ ~ In c a.
Proof. split; [apply split_once_inv|]. intros [-> H]. apply split_once_app. exact H. Qed.
Lemma split_once_none c s : split_once c s = None <-> ~ In c s.
Proof.
  induction s as [|x s IH]; cbn [split_once]; [split; [intros _ []|reflexivity]|]. destruct (N.eqb_spec x c) as [->|Ne].
  - split; [discriminate|]. intros H. destruct H. left. reflexivity.
  - destruct (split_once c s) eqn:E; cbn [option_map].
    + split; [discriminate|]. intros H. assert (~ In c s) as H' by (intros I; apply H; right; exact I). apply IH in H'. discriminate.
    + split; [|reflexivity]. intros _ [Ex|I]; [congruence|]. exact (proj1 IH eq_refl I).
Qed.
