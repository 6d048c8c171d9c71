(** Lemmas about trie nodes and proofs. *)
From Verif Require Import Base Keys_Model Keys_Proofs Trie_Model Trie_Spec.

Section NodeInd.
Context (P : node -> Prop)
  (He : P NEmpty) (Hl : forall k v, P (NLeaf k v)) (Hx : forall p c, P c -> P (NExt p c))
  (Hb : forall l v, Forall P l -> P (NBranch l v)) (Hh : forall h, P (NHash h)).
Fixpoint node_ind' (n : node) : P n :=
  match n with
  | NEmpty => He
  | NLeaf k v => Hl k v
  | NExt p c => Hx p c (node_ind' c)
  | NBranch l v => Hb l v ((fix go l : Forall P l := match l with [] => Forall_nil P | c :: r => Forall_cons c (node_ind' c) (go r) end) l)
  | NHash h => Hh h
  end.
End NodeInd.

Lemma split_last_snoc k x : split_last (k ++ [x]) = Some (k, x).
Proof. unfold split_last. rewrite rev_app_distr. cbn. rewrite rev_involutive. reflexivity. Qed.
Lemma strip_app p q : strip_prefix p (p ++ q) = Some q.
Proof. induction p as [|x p IH]; cbn; [reflexivity|]. rewrite N.eqb_refl. exact IH. Qed.
Lemma strip_inv p : forall q r, strip_prefix p q = Some r -> q = p ++ r.
Proof.
  induction p as [|x p IH]; intros [|y q] r; cbn; try congruence.
  destruct (x =? y) eqn:E; [|discriminate]. apply N.eqb_eq in E. subst y.
  intros H. apply IH in H. subst q. reflexivity.
Qed.

Lemma traverse_branch l v i rest :
  traverse (NBranch l v) (i :: rest) = match nth_error l (N.to_nat i) with Some c => traverse c rest | None => TrPanic end.
Proof.
  cbn [traverse]. generalize (N.to_nat i). induction l as [|c l IH]; intros [|j]; cbn; auto.
Qed.

Lemma last_in {A} (l : list A) : forall x, In (last l x) (x :: l).
Proof.
  induction l as [|a l IH]; intros x; [left; reflexivity|]. destruct l as [|b l]; [right; left; reflexivity|].
  change (last (a :: b :: l) x) with (last (b :: l) x). destruct (IH x) as [E|I]; [left; exact E|right; right; exact I].
Qed.
Lemma last_default {A} (l : list A) : forall a d e, last (a :: l) d = last (a :: l) e.
Proof. induction l as [|b l IH]; intros a d e; [reflexivity|]. change (last (b :: l) d = last (b :: l) e). apply IH. Qed.
Lemma last_cons {A} (l : list A) x d : last (x :: l) d = last l x.
Proof. destruct l as [|b l]; [reflexivity|]. change (last (b :: l) d = last (b :: l) x). apply last_default. Qed.

Lemma trie_at t p s : at_path t p s -> trie t -> trie s.
Proof.
  induction 1 as [n|p c q s A IH|l v i c q s E A IH]; intros T; auto; inversion T; subst; auto.
  apply IH. apply nth_error_In in E. rewrite Forall_forall in H2. auto.
Qed.
Lemma at_app t p s : at_path t p s -> forall q u, at_path s q u -> at_path t (p ++ q) u.
Proof.
  induction 1 as [n|p c q s A IH|l v i c q s E A IH]; intros q' u B; cbn; auto.
  - rewrite <- app_assoc. constructor. auto.
  - econstructor; eauto.
Qed.
Lemma app_inj_prefix {A} (a : list A) : forall b c d, a ++ b = c ++ d -> length a = length c -> a = c /\ b = d.
Proof.
  induction a as [|x a IH]; intros b [|y c] d E L; cbn in *; try discriminate; auto.
  injection E as -> E. apply IH in E; [|lia]. destruct E as [-> ->]. auto.
Qed.
(** With non-empty extensions, a path leads to one node only. *)
Lemma at_det t p s : at_path t p s -> trie t -> forall u, at_path t p u -> s = u.
Proof.
  induction 1 as [n|p c q s A IH|l v i c q s E A IH]; intros T u B.
  - inversion B as [|p c q ? B' E1 E2|]; subst; auto.
    destruct p; [inversion T; congruence|discriminate].
  - inversion T; subst. inversion B as [? E1 E2|? ? q' ? B' E1 E2|]; subst.
    + destruct p; [congruence|discriminate].
    + apply app_inj_prefix in E2; [|reflexivity]. destruct E2 as [_ ->]. auto.
  - inversion T; subst. inversion B as [|? ? ? ? B'|? ? j c' q' ? E' B']; subst.
    match goal with J : N.of_nat j = N.of_nat i |- _ => apply Nat2N.inj in J; subst j end.
    rewrite E in E'. injection E' as <-.
    apply IH; auto. match goal with J : Forall trie l |- _ => rewrite Forall_forall in J; apply J end. eapply nth_error_In; eauto.
Qed.

Lemma check_ok keccak x h : check_node_hash keccak x h = Ok tt <-> keccak x = h.
Proof.
  unfold check_node_hash. destruct (beqb (keccak x) h) eqn:E.
  - apply beqb_spec in E. tauto.
  - apply beqb_false in E. split; [discriminate|tauto].
Qed.
Lemma obind_inv {A B} (x : outcome A) (f : A -> outcome B) y : obind x f = Ok y -> exists a, x = Ok a /\ f a = Ok y.
Proof. destruct x; cbn; try discriminate. eauto. Qed.

Section Hashed.
Context (keccak : bytes -> bytes) (decode_node : bytes -> outcome node).
Notation enc := (encode_raw keccak).
Notation seen := (seen keccak).
Definition link c := if blen (enc c) <? 32 then seen c else NHash (keccak (enc c)).

Lemma seen_ext p c : seen (NExt p c) = NExt p (link c).
Proof. reflexivity. Qed.
Lemma seen_branch l v : seen (NBranch l v) = NBranch (map link l) v.
Proof. reflexivity. Qed.

(** What one step from a node can give. *)
Definition leads (n : node) (path : bytes) (r : traversal) : Prop :=
  match r with
  | TrNode h rest => exists p m, path = p ++ rest /\ at_path n p m /\ h = keccak (enc m)
  | TrValue v =>
      (exists q k, path = q ++ k /\ k <> [] /\ at_path n q (NLeaf (k ++ [16]) v)) \/
      (exists l, at_path n path (NBranch l (Some v)))
  | _ => True
  end.
Lemma leads_down n p c path r :
  (forall q s, at_path c q s -> at_path n (p ++ q) s) -> leads c path r -> leads n (p ++ path) r.
Proof.
  intros H. destruct r as [|v|h rest| |]; cbn; auto.
  - intros [(q & k & -> & K & A)|(l & A)]; [left|right].
    + exists (p ++ q), k. rewrite app_assoc. auto.
    + eauto.
  - intros (q & m & -> & A & E). exists (p ++ q), m. rewrite app_assoc. auto.
Qed.
Lemma traverse_leads n : trie n -> forall path, leads n path (traverse (seen n) path) /\ leads n path (traverse (link n) path).
Proof.
  induction n as [|k v|p c IH|l v IH|h] using node_ind'; intros T path; inversion T; subst.
  all: match goal with |- leads ?n ?path _ /\ _ => cut (leads n path (traverse (seen n) path)) end;
    [intros L; split; [exact L|]; unfold link; destruct (blen _ <? 32); [exact L|];
     cbn [traverse leads]; exists [], n || eexists [], _; split; [reflexivity|]; split; [constructor|reflexivity]|].
  - exact Logic.I.
  - cbn [seen traverse]. rewrite split_last_snoc. cbn [negb N.eqb]. change (16 =? 16) with true. cbn [negb].
    destruct k0 as [|x k0]; [exact Logic.I|]. cbn [is_nil].
    destruct (beqb (x :: k0) path) eqn:E; cbn [negb]; [|exact Logic.I]. apply beqb_spec in E. subst path.
    left. exists [], (x :: k0). split; [reflexivity|]. split; [congruence|constructor].
  - rewrite seen_ext. cbn [traverse]. destruct p as [|x p]; [congruence|]. cbn [is_nil].
    destruct (strip_prefix (x :: p) path) as [r|] eqn:E; [|exact Logic.I]. apply strip_inv in E. subst path.
    eapply leads_down; [|apply IH; assumption]. intros q s A. constructor. exact A.
  - rewrite seen_branch. destruct path as [|i rest].
    + cbn [traverse]. destruct v as [v|]; [|exact Logic.I]. right. eexists. constructor.
    + rewrite traverse_branch, nth_error_map. destruct (nth_error l (N.to_nat i)) as [c|] eqn:E; [|exact Logic.I].
      cbn [option_map]. rewrite Forall_forall in IH, H2. pose proof (nth_error_In _ _ E) as I.
      apply (leads_down _ [i] c); [|apply IH; auto].
      intros q s A. cbn. rewrite <- (N2Nat.id i). econstructor; eauto.
Qed.

Context (Hread : reads_back keccak decode_node).

(** Following a proof from a node of the trie leads to nodes of the trie. *)
Lemma follow_sound t nodes : trie t -> forall p cur x rest final rest',
  at_path t p cur -> x = enc cur -> sized (x :: nodes) ->
  follow keccak decode_node x rest nodes = Ok (final, rest') ->
  (exists q s, rest = q ++ rest' /\ at_path t (p ++ q) s /\ final = enc s) \/ forged keccak t nodes.
Proof.
  intros T. induction nodes as [|y nodes IH]; intros p cur x rest final rest' A -> Z F; cbn [follow] in F.
  - injection F as <- <-. left. exists [], cur. rewrite app_nil_r. auto.
  - apply obind_inv in F. destruct F as (n & D & F).
    rewrite (Hread cur) in D; [|eapply trie_at; eauto|inversion Z; auto]. injection D as <-.
    pose proof (proj1 (traverse_leads cur (trie_at _ _ _ A T) rest)) as L.
    destruct (traverse (seen cur) rest) as [|v|h r| |]; try discriminate.
    destruct L as (q & m & -> & B & ->). apply obind_inv in F. destruct F as ([] & C & F).
    apply check_ok in C. pose proof (at_app _ _ _ A _ _ B) as AB.
    destruct (bytes_eq_dec y (enc m)) as [->|N].
    + destruct (IH (p ++ q) m (enc m) r final rest' AB eq_refl) as [(q' & s & -> & A' & ->)|(z & q' & s & I & A' & N & E)]; auto.
      * inversion Z; auto.
      * left. exists (q ++ q'), s. rewrite <- app_assoc in A'. rewrite app_assoc. auto.
      * right. exists z, q', s. cbn. auto 10.
    + right. exists y, (p ++ q), m. cbn. auto 10.
Qed.

Lemma proof_sound t path proof final rest : trie t -> sized proof ->
  validate_trie_proof keccak decode_node (Some (root_hash keccak t)) path proof = Ok (final, rest) ->
  (exists q s, path = q ++ rest /\ at_path t q s /\ final = enc s) \/ forged keccak t proof.
Proof.
  intros T Z V. destruct proof as [|x nodes]; [discriminate|]. cbn [validate_trie_proof] in V.
  apply obind_inv in V. destruct V as ([] & C & F). apply check_ok in C.
  destruct (bytes_eq_dec x (enc t)) as [->|N].
  - eapply (follow_sound t nodes T [] t) in F; eauto; [|constructor].
    destruct F as [F|(z & q & s & I & A & N & E)]; [left; exact F|right]. exists z, q, s. cbn. auto 10.
  - right. exists x, [], t. cbn. repeat split; auto. constructor.
Qed.
Lemma follow_last nodes : forall x rest final rest', follow keccak decode_node x rest nodes = Ok (final, rest') -> final = last nodes x.
Proof.
  induction nodes as [|y nodes IH]; intros x rest final rest' F; cbn [follow] in F.
  - injection F as <- <-. reflexivity.
  - apply obind_inv in F. destruct F as (n & _ & F). destruct (traverse n rest); try discriminate.
    apply obind_inv in F. destruct F as (_ & _ & F). apply IH in F. rewrite F.
    symmetry. apply last_cons.
Qed.

(** ** Honest proofs *)

Definition hashed (m : node) : Prop := 32 <= blen (enc m).
Lemma link_hashed m : hashed m -> link m = NHash (keccak (enc m)).
Proof. unfold link, hashed. destruct (blen (enc m) <? 32) eqn:E; [lia|reflexivity]. Qed.

Lemma step_ext p c X : p <> [] -> traverse (seen (NExt p c)) (p ++ X) = traverse (link c) X.
Proof. intros N. rewrite seen_ext. cbn [traverse]. destruct p; [congruence|]. cbn [is_nil]. rewrite strip_app. reflexivity. Qed.
Lemma step_branch l v i c X : nth_error l i = Some c -> traverse (seen (NBranch l v)) (N.of_nat i :: X) = traverse (link c) X.
Proof. intros E. rewrite seen_branch, traverse_branch, Nat2N.id, nth_error_map, E. reflexivity. Qed.

Lemma follow_one cur pre n rest r :
  trie cur -> blen (enc cur) <= 1024 -> hashed n ->
  (forall X, traverse (seen cur) (pre ++ X) = traverse (link n) X) ->
  follow keccak decode_node (enc cur) (pre ++ rest) (enc n :: r) = follow keccak decode_node (enc n) rest r.
Proof.
  intros T Z Hn S. cbn [follow]. rewrite Hread by assumption. cbn [obind]. rewrite S, link_hashed by exact Hn.
  cbn [traverse]. replace (check_node_hash keccak (enc n) (keccak (enc n))) with (Ok tt); [reflexivity|].
  symmetry. apply check_ok. reflexivity.
Qed.

(** From [cur], having come inside it to the reference to [n]. *)
Lemma follow_complete t n p m : at_path n p m -> trie n -> fits keccak t ->
  forall d0 dn cur pre rest,
  at_path t d0 cur -> trie cur -> at_path t dn n ->
  (forall X, traverse (seen cur) (pre ++ X) = traverse (link n) X) ->
  exists nodes d' cur' pre',
    follow keccak decode_node (enc cur) (pre ++ p ++ rest) nodes = Ok (enc cur', pre' ++ rest) /\
    trie cur' /\ at_path t d' cur' /\ (forall X, traverse (seen cur') (pre' ++ X) = traverse (seen m) X) /\
    (hashed m -> cur' = m /\ pre' = []) /\
    Forall (fun x => exists q s, at_path t q s /\ x = enc s) nodes /\ (length nodes <= length p + 1)%nat.
Proof.
  intros A. induction A as [n|p c q s A IH|l v i c q s E A IH]; intros T F d0 dn cur pre rest A0 T0 An S.
  - destruct (blen (enc n) <? 32) eqn:B.
    + exists [], d0, cur, pre. cbn [app follow length]. assert (L : link n = seen n) by (unfold link; rewrite B; reflexivity).
      rewrite L in S. split; [reflexivity|]. split; [assumption|]. split; [assumption|]. split; [assumption|].
      split; [unfold hashed; lia|]. split; [constructor|lia].
    + exists [enc n], dn, n, []. cbn [app length]. rewrite follow_one by (first [assumption | solve [eapply F; eauto] | unfold hashed; lia]).
      cbn [follow]. repeat split; auto. constructor; [|constructor]. exists dn, n. auto.
  - inversion T; subst. assert (Ac : at_path t (dn ++ p) c) by (rewrite <- (app_nil_r p); eapply at_app; eauto; constructor; constructor).
    destruct (blen (enc (NExt p c)) <? 32) eqn:B.
    + assert (L : link (NExt p c) = seen (NExt p c)) by (unfold link; rewrite B; reflexivity). rewrite L in S.
      destruct (IH H3 F d0 (dn ++ p) cur (pre ++ p) rest A0 T0 Ac) as (nodes & d' & cur' & pre' & Fo & T' & A' & S' & Hh & Fa & Le).
      { intros X. rewrite <- app_assoc, S. apply step_ext. assumption. }
      exists nodes, d', cur', pre'. rewrite <- app_assoc in Fo. rewrite <- app_assoc, app_length. repeat split; auto; try apply Hh; auto. lia.
    + destruct (IH H3 F dn (dn ++ p) (NExt p c) p rest An T Ac) as (nodes & d' & cur' & pre' & Fo & T' & A' & S' & Hh & Fa & Le).
      { intros X. apply step_ext. assumption. }
      exists (enc (NExt p c) :: nodes), d', cur', pre'.
      rewrite (follow_one cur pre (NExt p c)) by (first [assumption | solve [eapply F; eauto] | unfold hashed; lia]).
      rewrite <- app_assoc, app_length. cbn [length]. repeat split; auto; try apply Hh; auto.
      * constructor; auto. exists dn, (NExt p c). auto.
      * destruct p; [congruence|]. cbn [length]. lia.
  - inversion T; subst. rewrite Forall_forall in H2. pose proof (H2 _ (nth_error_In _ _ E)) as Tc.
    assert (Ac : at_path t (dn ++ [N.of_nat i]) c) by (eapply at_app; eauto; econstructor; eauto; constructor).
    destruct (blen (enc (NBranch l v)) <? 32) eqn:B.
    + assert (L : link (NBranch l v) = seen (NBranch l v)) by (unfold link; rewrite B; reflexivity). rewrite L in S.
      destruct (IH Tc F d0 (dn ++ [N.of_nat i]) cur (pre ++ [N.of_nat i]) rest A0 T0 Ac) as (nodes & d' & cur' & pre' & Fo & T' & A' & S' & Hh & Fa & Le).
      { intros X. rewrite <- app_assoc, S. apply step_branch. assumption. }
      exists nodes, d', cur', pre'. rewrite <- app_assoc in Fo. cbn [app length] in *. repeat split; auto; try apply Hh; auto. lia.
    + destruct (IH Tc F dn (dn ++ [N.of_nat i]) (NBranch l v) [N.of_nat i] rest An T Ac) as (nodes & d' & cur' & pre' & Fo & T' & A' & S' & Hh & Fa & Le).
      { intros X. apply step_branch. assumption. }
      exists (enc (NBranch l v) :: nodes), d', cur', pre'.
      rewrite (follow_one cur pre (NBranch l v)) by (first [assumption | solve [eapply F; eauto] | unfold hashed; lia]).
      cbn [app length] in *. repeat split; auto; try apply Hh; auto; try lia.
      constructor; auto. exists dn, (NBranch l v). auto.
Qed.

Lemma proof_complete t p m rest : at_path t p m -> trie t -> fits keccak t ->
  exists proof cur' pre',
    validate_trie_proof keccak decode_node (Some (root_hash keccak t)) (p ++ rest) proof = Ok (enc cur', pre' ++ rest) /\
    trie cur' /\ (forall X, traverse (seen cur') (pre' ++ X) = traverse (seen m) X) /\ blen (enc cur') <= 1024 /\
    (hashed m \/ p = [] -> cur' = m /\ pre' = []) /\
    Forall (fun x => exists q s, at_path t q s /\ x = enc s) proof /\ (length proof <= length p + 1)%nat.
Proof.
  intros A T F.
  assert (R : check_node_hash keccak (enc t) (root_hash keccak t) = Ok tt) by (apply check_ok; reflexivity).
  inversion A as [n E1 E2|q c r s B E1 E2|l v i c q s E B E1 E2]; subst.
  - exists [enc m], m, []. cbn [validate_trie_proof app length]. rewrite R. cbn [obind follow]. repeat split; auto.
    + eapply F; eauto.
    + constructor; [|constructor]. exists [], m. auto.
  - inversion T; subst.
    destruct (follow_complete (NExt q c) c r m B H3 F [] q (NExt q c) q rest) as (nodes & d' & cur' & pre' & Fo & T' & A' & S' & Hh & Fa & Le).
    { constructor. } { exact T. } { rewrite <- (app_nil_r q) at 2. apply at_ext. constructor. } { intros X. apply step_ext. assumption. }
    exists (enc (NExt q c) :: nodes), cur', pre'. cbn [validate_trie_proof]. rewrite R. cbn [obind]. rewrite <- app_assoc.
    rewrite app_length. cbn [length]. repeat split; auto.
    + eapply F; eauto.
    + destruct H as [H|H]; [apply Hh; auto|destruct q; [congruence|discriminate]].
    + destruct H as [H|H]; [apply Hh; auto|destruct q; [congruence|discriminate]].
    + constructor; auto. exists [], (NExt q c). split; [constructor|reflexivity].
    + destruct q; [congruence|]. cbn [length]. lia.
  - inversion T; subst. rewrite Forall_forall in H2. pose proof (H2 _ (nth_error_In _ _ E)) as Tc.
    destruct (follow_complete (NBranch l v) c q m B Tc F [] [N.of_nat i] (NBranch l v) [N.of_nat i] rest) as (nodes & d' & cur' & pre' & Fo & T' & A' & S' & Hh & Fa & Le).
    { constructor. } { exact T. } { econstructor; eauto. constructor. } { intros X. apply step_branch. assumption. }
    exists (enc (NBranch l v) :: nodes), cur', pre'. cbn [validate_trie_proof]. rewrite R. cbn [obind].
    cbn [app length] in *. repeat split; auto; try lia.
    + eapply F; eauto.
    + destruct H as [H|H]; [apply Hh; auto|discriminate].
    + destruct H as [H|H]; [apply Hh; auto|discriminate].
    + constructor; auto. exists [], (NBranch l v). split; [constructor|reflexivity].
Qed.
End Hashed.

Lemma traverse_end n h r : traverse n [] = TrNode h r -> n = NHash h.
Proof.
  destruct n as [|k v|p c|l v|h']; cbn [traverse]; try discriminate.
  - destruct (split_last k) as [[a b]|]; [|discriminate]. destruct (negb (b =? 16)); [discriminate|]. destruct (is_nil a); [discriminate|].
    destruct (negb (beqb a [])); discriminate.
  - destruct p; cbn; discriminate.
  - destruct v; discriminate.
  - congruence.
Qed.

(** No step panics. *)
Lemma no_panic_traverse n : forall path, Forall nibble path -> (forall q l v, at_path n q (NBranch l v) -> length l = 16%nat) -> traverse n path <> TrPanic.
Proof.
  induction n as [|k v|p c IH|l v IH|h] using node_ind'; intros path P H; cbn [traverse]; try discriminate.
  - destruct (split_last k) as [[a b]|]; [|discriminate]. destruct (negb (b =? 16)); [discriminate|]. destruct (is_nil a); [discriminate|].
    destruct (negb (beqb a path)); discriminate.
  - destruct (is_nil p); [discriminate|]. destruct (strip_prefix p path) as [r|] eqn:E; [|discriminate].
    apply strip_inv in E. subst path. apply Forall_app in P. destruct P as [_ P]. apply IH; auto. intros q l v A. apply (H (p ++ q) l v). constructor. exact A.
  - destruct path as [|i rest]; [destruct v; discriminate|].
    change (traverse (NBranch l v) (i :: rest) <> TrPanic). rewrite traverse_branch.
    pose proof (H [] l v (at_top _)) as L. inversion P; subst. unfold nibble in *.
    destruct (nth_error l (N.to_nat i)) as [c|] eqn:E.
    + rewrite Forall_forall in IH. apply IH; [eapply nth_error_In; eauto|assumption|].
      intros q l' v' A. apply (H (i :: q) l' v'). rewrite <- (N2Nat.id i). econstructor; eauto.
    + apply nth_error_None in E. lia.
Qed.
Lemma traverse_suffix n : forall path h r, traverse n path = TrNode h r -> exists q, path = q ++ r.
Proof.
  induction n as [|k v|p c IH|l v IH|h'] using node_ind'; intros path h r.
  - discriminate.
  - cbn [traverse]. destruct (split_last k) as [[a b]|]; [|discriminate]. destruct (negb (b =? 16)); [discriminate|]. destruct (is_nil a); [discriminate|].
    destruct (negb (beqb a path)); discriminate.
  - cbn [traverse]. destruct (is_nil p); [discriminate|]. destruct (strip_prefix p path) as [r'|] eqn:E; [|discriminate].
    intros T. apply IH in T. destruct T as (q & ->). apply strip_inv in E. exists (p ++ q). rewrite <- app_assoc. exact E.
  - destruct path as [|i rest]; [cbn [traverse]; destruct v; discriminate|]. rewrite traverse_branch.
    destruct (nth_error l (N.to_nat i)) as [c|] eqn:E; [|discriminate]. rewrite Forall_forall in IH. intros T.
    apply IH in T; [|eapply nth_error_In; eauto]. destruct T as (q & ->). exists (i :: q). reflexivity.
  - cbn [traverse]. intros [= <- <-]. exists []. reflexivity.
Qed.
(** ** Two proofs from the same node *)
Section Two.
Context (keccak : bytes -> bytes) (decode_node : bytes -> outcome node).
Notation follow := (follow keccak decode_node).
Lemma follow_two n1 : forall n2 x rest r1 r2,
  follow x rest n1 = Ok r1 -> follow x rest n2 = Ok r2 ->
  clash_between keccak n1 n2 \/
  (exists tl, n2 = n1 ++ tl /\ follow (fst r1) (snd r1) tl = Ok r2) \/
  (exists tl, n1 = n2 ++ tl /\ follow (fst r2) (snd r2) tl = Ok r1).
Proof.
  induction n1 as [|y n1 IH]; intros n2 x rest r1 r2 F1 F2.
  - right. left. exists n2. split; [reflexivity|]. cbn [Trie_Model.follow] in F1. injection F1 as <-. exact F2.
  - destruct n2 as [|z n2].
    + right. right. exists (y :: n1). split; [reflexivity|]. cbn [Trie_Model.follow] in F2. injection F2 as <-. exact F1.
    + cbn [Trie_Model.follow] in F1, F2. apply obind_inv in F1, F2. destruct F1 as (m & D & F1), F2 as (m2 & D2 & F2).
      rewrite D in D2. injection D2 as <-. destruct (traverse m rest) as [|v|h r| |]; try discriminate.
      apply obind_inv in F1, F2. destruct F1 as ([] & C1 & F1), F2 as ([] & C2 & F2). apply check_ok in C1, C2.
      destruct (bytes_eq_dec y z) as [<-|N].
      * destruct (IH n2 y r r1 r2 F1 F2) as [(a & b & Ia & Ib & Nab & E)|[(tl & -> & T)|(tl & -> & T)]].
        -- left. exists a, b. cbn. auto 10.
        -- right. left. exists tl. split; [reflexivity|exact T].
        -- right. right. exists tl. split; [reflexivity|exact T].
      * left. exists y, z. cbn. repeat split; auto. congruence.
Qed.
Lemma proof_two root path p1 p2 r1 r2 :
  validate_trie_proof keccak decode_node (Some root) path p1 = Ok r1 ->
  validate_trie_proof keccak decode_node (Some root) path p2 = Ok r2 ->
  clash_between keccak p1 p2 \/
  (exists tl, p2 = p1 ++ tl /\ follow (fst r1) (snd r1) tl = Ok r2) \/
  (exists tl, p1 = p2 ++ tl /\ follow (fst r2) (snd r2) tl = Ok r1).
Proof.
  destruct p1 as [|x n1], p2 as [|y n2]; try discriminate. cbn [validate_trie_proof]. intros V1 V2.
  apply obind_inv in V1, V2. destruct V1 as ([] & C1 & F1), V2 as ([] & C2 & F2). apply check_ok in C1, C2.
  destruct (bytes_eq_dec x y) as [<-|N].
  - destruct (follow_two n1 n2 x path r1 r2 F1 F2) as [(a & b & Ia & Ib & Nab & E)|[(tl & -> & T)|(tl & -> & T)]].
    + left. exists a, b. cbn. auto 10.
    + right. left. exists tl. split; [reflexivity|exact T].
    + right. right. exists tl. split; [reflexivity|exact T].
  - left. exists x, y. cbn. repeat split; auto. congruence.
Qed.
Lemma no_panic_follow nodes :
  (forall b, decode_node b <> Panic) ->
  (forall b n q l v, decode_node b = Ok n -> at_path n q (NBranch l v) -> length l = 16%nat) ->
  forall x rest, Forall nibble rest -> follow x rest nodes <> Panic /\
    (forall f r, follow x rest nodes = Ok (f, r) -> Forall nibble r).
Proof.
  intros D16 D. induction nodes as [|y nodes IH]; intros x rest P; cbn [Trie_Model.follow].
  - split; [discriminate|]. intros f r [= <- <-]. exact P.
  - destruct (decode_node x) as [n| |] eqn:E; cbn [obind]; [|split; [discriminate|intros; discriminate]|exfalso; eapply D16; eauto].
    pose proof (no_panic_traverse n rest P (fun q l v => D x n q l v E)) as NP.
    destruct (traverse n rest) as [|v|h r| |] eqn:T; try (split; [discriminate|intros; discriminate]); [|congruence].
    apply traverse_suffix in T. destruct T as (q & ->). apply Forall_app in P. destruct P as [_ P].
    unfold check_node_hash. destruct (beqb (keccak y) h); cbn [obind]; [|split; [discriminate|intros; discriminate]].
    apply IH. exact P.
Qed.
End Two.
