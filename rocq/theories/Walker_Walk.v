(** Lemmas about walks over a trie. *)
From Verif Require Import Base Keys_Model Keys_Spec Keys_Proofs Trie_Model Trie_Spec Trie_Proofs StateContent_Model Walker_Model Walker_Spec Walker_Proofs.

Lemma before_ext p x r : before p (p ++ x :: r).
Proof. induction p; constructor; assumption. Qed.
Lemma before_app p q r : before q r -> before (p ++ q) (p ++ r).
Proof. intros B. induction p; [assumption|]. now constructor. Qed.
Lemma before_irrefl p : ~ before p p.
Proof. induction p as [|x p IH]; intros B; inversion B; subst; [lia|auto]. Qed.

Lemma sorted_app {A} (R : A -> A -> Prop) l1 : forall l2, StronglySorted R l1 -> StronglySorted R l2 ->
  (forall x y, In x l1 -> In y l2 -> R x y) -> StronglySorted R (l1 ++ l2).
Proof.
  induction l1 as [|a l1 IH]; intros l2 S1 S2 C; cbn; [assumption|]. inversion S1; subst. constructor.
  - apply IH; auto. intros. apply C; cbn; auto.
  - apply Forall_app. split; [assumption|]. apply Forall_forall. intros y Y. apply C; cbn; auto.
Qed.
Lemma sorted_nodup {A} (R : A -> A -> Prop) l : (forall x, ~ R x x) -> StronglySorted R l -> NoDup l.
Proof.
  intros I S. induction S as [|a l S IH F]; constructor; [|assumption]. intros X. rewrite Forall_forall in F. exact (I a (F a X)).
Qed.

Lemma rlp_hash_len h : length h = 32%nat -> blen (rlp_bytes h) = 33.
Proof. intros L. destruct h as [|a [|b h]]; try discriminate. unfold blen, rlp_bytes. rewrite app_length. unfold blen. rewrite L. reflexivity. Qed.
Lemma concat_len (l : list bytes) x : In x l -> blen x <= blen (concat l).
Proof.
  induction l as [|y l IH]; intros H; [easy|]. cbn [concat]. unfold blen in *. rewrite app_length. destruct H as [->|H]; [lia|]. specialize (IH H). lia.
Qed.
Lemma rlp_list_len p : blen p < blen (rlp_list p).
Proof. unfold rlp_list, rlp_header, blen. rewrite app_length. destruct (N.of_nat (length p) <? 56); cbn [length]; lia. Qed.

Lemma at_nibbles n p s : at_path n p s -> trie n -> Forall nibble p.
Proof.
  induction 1 as [n|p c q s A IH|l v i c q s E A IH]; intros T; [constructor| |]; inversion T; subst.
  - apply Forall_app; auto.
  - constructor.
    + assert (i < length l)%nat by (apply nth_error_Some; congruence). unfold nibble. lia.
    + apply IH. rewrite Forall_forall in *. eauto using nth_error_In.
Qed.

Lemma enumerate_map {A B} (g : A -> B) l : enumerate (map g l) = map (fun ic => (fst ic, g (snd ic))) (enumerate l).
Proof.
  unfold enumerate. rewrite map_length. generalize 0%nat. induction l as [|a l IH]; intros i; [reflexivity|]. cbn. f_equal. apply IH.
Qed.
Lemma enumerate_in {A} (l : list A) i c : In (i, c) (enumerate l) <-> nth_error l i = Some c.
Proof.
  unfold enumerate. enough (forall k, In (i, c) (combine (seq k (length l)) l) <-> (k <= i)%nat /\ nth_error l (i - k) = Some c) as H.
  { rewrite H, Nat.sub_0_r. intuition lia. }
  induction l as [|a l IH]; intros k; cbn.
  - split; [easy|]. intros [_ X]. destruct (i - k)%nat; discriminate.
  - rewrite IH. split.
    + intros [[= -> ->]|[H1 H2]]; [rewrite Nat.sub_diag; auto|]. split; [lia|]. replace (i - k)%nat with (S (i - S k)) by lia. assumption.
    + intros [H1 H2]. destruct (Nat.eq_dec i k) as [->|NE]; [rewrite Nat.sub_diag in H2; injection H2 as ->; auto|].
      right. split; [lia|]. replace (i - k)%nat with (S (i - S k)) in H2 by lia. assumption.
Qed.

Section Walk.
Context (keccak : bytes -> bytes) (decode_node : bytes -> outcome node).
Context (Klen : forall x, length (keccak x) = 32%nat) (Hread : reads_back keccak decode_node).
Notation enc := (encode_raw keccak).

Lemma child_small c : trie c -> blen (write_node keccak enc c) < 32 -> blen (enc c) < 32.
Proof.
  intros T. assert (write_node keccak enc c = if blen (enc c) <? 32 then enc c else rlp_bytes (keccak (enc c))) as -> by (inversion T; reflexivity).
  destruct (N.ltb_spec (blen (enc c)) 32); [auto|]. rewrite rlp_hash_len by apply Klen. lia.
Qed.
Lemma small_below n q s : at_path n q s -> trie n -> blen (enc n) < 32 -> blen (enc s) < 32.
Proof.
  induction 1 as [n|p c q s A IH|l v i c q s E A IH]; intros T B; [assumption| |]; inversion T; subst.
  - apply IH; [assumption|]. apply child_small; [assumption|]. cbn [encode_raw] in B.
    pose proof (rlp_list_len (rlp_bytes (encode_compact p) ++ write_node keccak enc c)) as L. unfold blen in *. rewrite app_length in L. lia.
  - assert (trie c) as Tc by (rewrite Forall_forall in *; eauto using nth_error_In). apply IH; [assumption|]. apply child_small; [assumption|]. cbn [encode_raw] in B.
    match type of B with blen (rlp_list ?x) < _ => pose proof (rlp_list_len x) as L end.
    pose proof (concat_len (map (fun c => write_node keccak enc c) l) (write_node keccak enc c) (in_map _ _ _ (nth_error_In _ _ E))) as C.
    unfold blen in *. rewrite app_length in L. lia.
Qed.

Context (db : bytes -> option bytes) (pt : bool) (f : option filter).
Context (t : node) (Tt : trie t) (Ft : fits keccak t) (Hs : has_some keccak db t).
Context (Hp : pt = true \/ has_trie keccak db t).
Context (Hf : match f with
              | None => True
              | Some g => f_start g <= f_end g /\ f_end g < 2 ^ 256 /\ forall p s, at_path t p s -> (length p <= 64)%nat
              end).

Definition inside (p : bytes) : bool :=
  match f with Some g => match filter_contains g p with Ok b => b | _ => false end | None => true end.
Definition enters (c : node) (p : bytes) : bool :=
  negb (blen (enc c) <? 32) && inside p && match db (keccak (enc c)) with Some _ => true | None => false end.

Definition entry := (node * bytes * list bytes)%type.
Definition item (e : entry) : trie_proof := let '(n, path, above) := e in mk_tp path (above ++ [enc n]).
Definition child_of (path : bytes) (proof : list bytes) (ic : nat * node) : list entry :=
  if enters (snd ic) (path ++ [N.of_nat (fst ic)]) then [(snd ic, path ++ [N.of_nat (fst ic)], proof)] else [].
Definition children_of (e : entry) : list entry :=
  let '(n, path, above) := e in
  match n with
  | NExt p c => if enters c (path ++ p) then [(c, path ++ p, above ++ [enc n])] else []
  | NBranch l _ => flat_map (child_of path (above ++ [enc n])) (enumerate l)
  | _ => []
  end.
Fixpoint visits (n : node) (path : bytes) (above : list bytes) {struct n} : list trie_proof :=
  mk_tp path (above ++ [enc n]) ::
  match n with
  | NExt p c => if enters c (path ++ p) then visits c (path ++ p) (above ++ [enc n]) else []
  | NBranch l _ =>
      (fix go (i : nat) (l : list node) : list trie_proof :=
         match l with
         | [] => []
         | c :: r => (if enters c (path ++ [N.of_nat i]) then visits c (path ++ [N.of_nat i]) (above ++ [enc n]) else []) ++ go (S i) r
         end) 0%nat l
  | _ => []
  end.
Definition vis (e : entry) : list trie_proof := let '(n, path, above) := e in visits n path above.

Lemma visits_eq e : vis e = item e :: flat_map vis (children_of e).
Proof.
  destruct e as [[n path] above]. destruct n as [|k v|p c|l v|h]; cbn [vis visits item children_of flat_map]; try reflexivity.
  - destruct (enters c (path ++ p)); [|reflexivity]. cbn [flat_map]. rewrite app_nil_r. reflexivity.
  - f_equal. unfold enumerate. set (proof := above ++ [enc (NBranch l v)]). generalize 0%nat. clearbody proof. induction l as [|c l IH]; intros i; [reflexivity|].
    cbn [length seq combine flat_map]. rewrite flat_map_app. cbn [fst snd]. rewrite <- IH. f_equal. unfold child_of. cbn [fst snd].
    destruct (enters c (path ++ [N.of_nat i])); [|reflexivity]. cbn [flat_map]. rewrite app_nil_r. reflexivity.
Qed.

(** ** One step *)
Definition good (e : entry) : Prop :=
  let '(n, path, above) := e in at_path t path n /\ (path = [] \/ 32 <= blen (enc n)).

Lemma inside_ok p s : at_path t p s -> (match f with Some g => filter_contains g p | None => Ok true end) = Ok (inside p).
Proof.
  intros A. unfold inside. destruct f as [g|]; [|reflexivity]. destruct Hf as (H1 & H2 & H3).
  rewrite contains_num; [reflexivity|eapply at_nibbles; eauto|eauto|lia|lia].
Qed.

Definition push (w : list trie_proof) (es : list entry) : walker := mk_walker pt (map item es ++ w) f.

Lemma process_ok st c path proof : at_path t path c -> trie c -> path <> [] ->
  process_node decode_node db (mk_walker pt st f) (link keccak c) proof path =
  Ok (push st (if enters c path then [(c, path, proof)] else [])).
Proof.
  intros A T NE. unfold process_node. cbn [wfilter is_partial_trie stack]. rewrite (inside_ok path c A). cbn [obind].
  unfold enters, push. destruct (inside path); cbn [negb andb]; [|rewrite Bool.andb_false_r; reflexivity]. rewrite Bool.andb_true_r.
  unfold link. destruct (N.ltb_spec (blen (enc c)) 32) as [S|B]; cbn [negb andb].
  - inversion T; subst; reflexivity.
  - destruct (Hs path c) as [D|D]; [split; auto| |]; rewrite D; cbn [map app]; [|destruct Hp as [->|H]; [reflexivity|]; rewrite (H path c) in D; [discriminate|split; auto]].
    rewrite Hread; [|assumption|eapply Ft; eauto]. inversion T; subst; try reflexivity. cbn in B. vm_compute in B. congruence.
Qed.

Lemma children_app l1 : forall w l2 proof path, process_children decode_node db w (l1 ++ l2) proof path =
  obind (process_children decode_node db w l1 proof path) (fun w => process_children decode_node db w l2 proof path).
Proof.
  induction l1 as [|[i c] l1 IH]; intros w l2 proof path; cbn [process_children app]; [reflexivity|].
  destruct (process_node decode_node db w c proof (path ++ [N.of_nat i])); cbn [obind]; auto.
Qed.

Lemma process_children_ok path proof L : forall st,
  (forall i c, In (i, c) L -> at_path t (path ++ [N.of_nat i]) c /\ trie c) ->
  process_children decode_node db (mk_walker pt st f) (rev (map (fun ic => (fst ic, link keccak (snd ic))) L)) proof path =
  Ok (push st (flat_map (child_of path proof) L)).
Proof.
  induction L as [|[i c] L IH]; intros st H; cbn [map rev fst snd]; [reflexivity|].
  rewrite children_app, IH by (intros; apply H; right; assumption). cbn [obind process_children]. unfold push.
  destruct (H i c (or_introl eq_refl)) as [A T]. rewrite process_ok by (try assumption; destruct path; discriminate).
  cbn [obind flat_map]. unfold push, child_of at 2. cbn [fst snd]. rewrite map_app, app_assoc. reflexivity.
Qed.

Lemma next_ok e rest : good e ->
  walker_next decode_node db (mk_walker pt (item e :: rest) f) = Ok (Some (item e, push rest (children_of e))).
Proof.
  destruct e as [[n path] above]. intros [A O]. pose proof (trie_at _ _ _ A Tt) as T. unfold walker_next. cbn [stack is_partial_trie wfilter item tp_proof tp_path].
  destruct (above ++ [enc n]) as [|x l] eqn:E; [now destruct above|]. rewrite <- E, last_last. rewrite Hread; [|assumption|eapply Ft; eauto].
  destruct n as [|k v|p c|l' v|h]; cbn [omap seen children_of push]; try reflexivity.
  - fold (link keccak c). inversion T; subst. rewrite process_ok; [reflexivity| |assumption|destruct path; [assumption|discriminate]].
    rewrite <- (app_nil_r p). eapply at_app; [eassumption|]. constructor. constructor.
  - change (fun c => if blen (enc c) <? 32 then seen keccak c else NHash (keccak (enc c))) with (link keccak).
    rewrite enumerate_map, process_children_ok; [reflexivity|]. intros i c I. apply enumerate_in in I. inversion T; subst. split.
    + eapply at_app; [eassumption|]. econstructor; [eassumption|constructor].
    + rewrite Forall_forall in *. eauto using nth_error_In.
Qed.

Lemma children_good e : good e -> Forall good (children_of e).
Proof.
  destruct e as [[n path] above]. intros [A O]. destruct n as [|k v|p c|l v|h]; cbn [children_of]; try constructor.
  - destruct (enters c (path ++ p)) eqn:E; constructor; [|constructor]. split.
    + rewrite <- (app_nil_r p). eapply at_app; [eassumption|]. constructor. constructor.
    + right. unfold enters in E. destruct (N.ltb_spec (blen (enc c)) 32); [discriminate|assumption].
  - apply Forall_forall. intros e I. apply in_flat_map in I. destruct I as ([i c] & I & J). unfold child_of in J. cbn [fst snd] in J.
    destruct (enters c (path ++ [N.of_nat i])) eqn:E; [|easy]. destruct J as [<-|[]]. apply enumerate_in in I. split.
    + eapply at_app; [eassumption|]. econstructor; [eassumption|constructor].
    + right. unfold enters in E. destruct (N.ltb_spec (blen (enc c)) 32); [discriminate|assumption].
Qed.

(** ** The whole walk *)
Lemma walk_run m : forall es, (length (flat_map vis es) <= m)%nat -> Forall good es ->
  walks decode_node db (mk_walker pt (map item es) f) (flat_map vis es).
Proof.
  induction m as [|m IH]; intros es L G; destruct es as [|e es].
  - constructor. reflexivity.
  - cbn [flat_map] in L. rewrite visits_eq in L. cbn in L. lia.
  - constructor. reflexivity.
  - inversion G; subst. cbn [flat_map] in *. rewrite visits_eq in *. cbn [app map] in *. econstructor; [apply next_ok; assumption|].
    unfold push. rewrite <- map_app, <- flat_map_app. apply IH.
    + cbn in L. rewrite flat_map_app. lia.
    + apply Forall_app. split; [apply children_good|]; assumption.
Qed.

Lemma walks_det w l : walks decode_node db w l -> forall l', walks decode_node db w l' -> l = l'.
Proof.
  induction 1 as [w E|w i w' l E W IH]; intros l' W'; inversion W' as [? E'|? ? ? ? E' W2]; subst; rewrite E in E'; try discriminate; [reflexivity|].
  injection E' as <- <-. f_equal. auto.
Qed.

(** ** What is visited *)
Lemma follow_app nodes : forall x rest y r z, follow keccak decode_node x rest nodes = Ok (y, r) ->
  follow keccak decode_node x rest (nodes ++ z) = follow keccak decode_node y r z.
Proof.
  induction nodes as [|a nodes IH]; intros x rest y r z F; cbn [follow app] in *; [injection F as <- <-; reflexivity|].
  destruct (decode_node x); cbn [obind] in *; try discriminate. destruct (traverse _ rest); try discriminate.
  destruct (check_node_hash keccak a h); cbn [obind] in *; try discriminate. auto.
Qed.

Definition found (n : node) (path : bytes) (above : list bytes) (i : trie_proof) : Prop :=
  exists r s nodes, tp_path i = path ++ r /\ tp_proof i = above ++ enc n :: nodes /\ at_path n r s /\
    (forall rest, follow keccak decode_node (enc n) (r ++ rest) nodes = Ok (enc s, rest)) /\ (length nodes <= length r)%nat /\
    Forall (fun x => exists q u, at_path n q u /\ x = enc u) nodes /\
    (r = [] \/ 32 <= blen (enc s) /\ inside (path ++ r) = true) /\
    (forall q u, at_path n q u -> 32 <= blen (enc u) -> extends r q -> q <> [] -> db (keccak (enc u)) <> None).

Lemma found_below n p c path above i : trie n -> trie c -> p <> [] -> at_path t path n -> at_path n p c ->
  (forall X, traverse (seen keccak n) (p ++ X) = traverse (link keccak c) X) ->
  (forall q u, at_path n q u -> q = [] \/ (exists q', q = p ++ q' /\ at_path c q' u) \/ (forall r, ~ extends (p ++ r) q)) ->
  enters c (path ++ p) = true -> found c (path ++ p) (above ++ [enc n]) i -> found n path above i.
Proof.
  intros Tn Tc NE A Ac Tr Inv En (r & s & nodes & E1 & E2 & As & F & L & Fa & Ins & Way).
  unfold enters in En. apply andb_prop in En. destruct En as [En Edb]. apply andb_prop in En. destruct En as [Eb Ei].
  assert (32 <= blen (enc c)) as B by (destruct (N.ltb_spec (blen (enc c)) 32); [discriminate|assumption]).
  exists (p ++ r), s, (enc c :: nodes). rewrite app_assoc. split; [assumption|]. split; [rewrite E2, <- app_assoc; reflexivity|].
  split; [eapply at_app; eassumption|]. split.
  - intros rest. rewrite <- app_assoc, (follow_one keccak decode_node Hread n p c (r ++ rest) nodes); [apply F|assumption|eapply Ft; eauto|exact B|exact Tr].
  - split; [rewrite app_length; cbn [length]; destruct p; [congruence|]; cbn; lia|]. split.
    { constructor; [exists p, c; auto|]. eapply Forall_impl; [|exact Fa]. intros x (q & u & Q & ->). exists (p ++ q), u. split; [eapply at_app; eauto|reflexivity]. }
    split.
    + right. destruct Ins as [->|Ins]; [|assumption]. split; [|now rewrite app_nil_r]. inversion As; subst; [assumption|].
      destruct p0; [|discriminate]. inversion Tc; subst. congruence.
    + intros q u Aq Bu Ex Nq. destruct (Inv q u Aq) as [->|[(q' & -> & Aq')|X]]; [congruence| |exfalso; eapply X; eassumption].
      destruct (list_eq_dec N.eq_dec q' []) as [->|Nq'].
      * assert (u = c) as -> by (eapply at_det; [exact Aq'|exact Tc|constructor]). destruct (db (keccak (enc c))); [discriminate|discriminate Edb].
      * apply (Way q' u Aq' Bu); [|assumption]. destruct Ex as [z Ex]. rewrite <- app_assoc in Ex. apply app_inv_head in Ex. now exists z.
Qed.

Lemma found_self n path above : found n path above (item (n, path, above)).
Proof.
  exists [], n, []. cbn [item tp_path tp_proof]. rewrite app_nil_r. split; [reflexivity|]. split; [reflexivity|]. split; [constructor|].
  split; [reflexivity|]. split; [cbn; lia|]. split; [constructor|]. split; [auto|]. intros q u _ _ [z Z] Nq. symmetry in Z. apply app_eq_nil in Z. tauto.
Qed.
Lemma visits_found n : trie n -> forall path above i, at_path t path n -> In i (visits n path above) -> found n path above i.
Proof.
  induction n as [|k v|p c IH|l v IH|h] using node_ind'; intros T path above i A H;
    match type of H with In i (visits ?n ?p ?a) => change (visits n p a) with (vis (n, p, a)) in H end;
    rewrite visits_eq in H; destruct H as [<-|H]; try apply found_self; cbn [children_of flat_map] in H; try easy.
  - destruct (enters c (path ++ p)) eqn:E; [|easy]. cbn [flat_map vis] in H. rewrite app_nil_r in H. inversion T; subst.
    assert (at_path (NExt p c) p c) as Ac by (rewrite <- (app_nil_r p) at 2; constructor; constructor).
    eapply (found_below (NExt p c) p c); try eassumption.
    + intros X. apply step_ext. assumption.
    + intros q u Q. inversion Q; subst; [auto|]. right. left. eauto.
    + apply IH; [assumption| |assumption]. eapply at_app; eassumption.
  - apply in_flat_map in H. destruct H as (e & I & H). apply in_flat_map in I. destruct I as ([j c] & I & J). unfold child_of in J. cbn [fst snd] in J.
    destruct (enters c (path ++ [N.of_nat j])) eqn:E; [|easy]. destruct J as [<-|[]]. apply enumerate_in in I. cbn [vis] in H. inversion T; subst.
    assert (trie c) as Tc by (rewrite Forall_forall in *; eauto using nth_error_In).
    assert (at_path (NBranch l v) [N.of_nat j] c) as Ac by (econstructor; [eassumption|constructor]).
    eapply (found_below (NBranch l v) [N.of_nat j] c); try eassumption; try discriminate.
    + intros X. apply step_branch. assumption.
    + intros q u Q. inversion Q; subst; [auto|]. right. destruct (Nat.eq_dec i0 j) as [->|NE].
      * left. assert (c0 = c) as -> by congruence. eexists. split; [|eassumption]. reflexivity.
      * right. intros r [z Z]. cbn in Z. injection Z as Z _. lia.
    + rewrite Forall_forall in IH. apply IH; [eapply nth_error_In; eassumption|assumption| |assumption]. eapply at_app; eassumption.
Qed.

(** A path with something behind it that is inside is inside. *)
Lemma inside_mono p q s : at_path t p s -> inside p = true -> extends p q -> inside q = true.
Proof.
  intros A. unfold inside. destruct f as [g|]; [|reflexivity]. destruct Hf as (H1 & H2 & H3). intros I [z ->].
  pose proof (at_nibbles _ _ _ A Tt) as F. pose proof (H3 _ _ A) as L.
  assert (filter_contains g (q ++ z) = Ok true) as C by (destruct (filter_contains g (q ++ z)); [congruence|discriminate|discriminate]).
  apply contains_iff in C; [|assumption..]. destruct C as (k & K & [y E] & B). rewrite app_length in L.
  rewrite (proj2 (contains_iff g q ltac:(apply Forall_app in F; tauto) ltac:(lia) H1 H2)); [reflexivity|].
  exists k. split; [assumption|]. split; [|assumption]. exists (z ++ y). rewrite app_assoc. assumption.
Qed.

Lemma visits_complete n r s : at_path n r s -> trie n -> forall path above, at_path t path n ->
  r = [] \/ 32 <= blen (enc s) -> inside (path ++ r) = true ->
  (forall q u, at_path n q u -> 32 <= blen (enc u) -> extends r q -> q <> [] -> db (keccak (enc u)) <> None) ->
  In (path ++ r) (map tp_path (visits n path above)).
Proof.
  induction 1 as [n|p c q s A IH|l v i c q s E A IH]; intros T path above At O In Way;
    match goal with |- List.In _ (map _ (visits ?n ?p ?a)) => change (visits n p a) with (vis (n, p, a)) end; rewrite visits_eq; cbn [map item tp_path].
  - left. now rewrite app_nil_r.
  - right. inversion T; subst. destruct O as [O|O]; [now destruct p|].
    assert (32 <= blen (enc c)) as B by (destruct (N.le_gt_cases 32 (blen (enc c))) as [|S]; [assumption|]; pose proof (small_below c q s A ltac:(assumption) S); lia).
    assert (at_path (NExt p c) p c) as Ac by (rewrite <- (app_nil_r p) at 2; constructor; constructor).
    assert (at_path t (path ++ p) c) as Atc by (eapply at_app; eassumption).
    cbn [children_of]. replace (enters c (path ++ p)) with true.
    + cbn [flat_map vis]. rewrite app_nil_r, app_assoc. apply IH; auto; [now rewrite <- app_assoc|].
      intros q' u Q B' [z ->] NE. apply (Way (p ++ q') u); auto; [now constructor|exists z; now rewrite app_assoc|]. now destruct p.
    + symmetry. unfold enters. destruct (N.ltb_spec (blen (enc c)) 32); [lia|]. cbn [negb andb].
      rewrite (inside_mono (path ++ p ++ q) (path ++ p) s); [|rewrite app_assoc; eapply at_app; eassumption|assumption|exists q; now rewrite app_assoc].
      assert (db (keccak (enc c)) <> None) as D by (apply (Way p c); auto; now exists q). destruct (db (keccak (enc c))); [reflexivity|congruence].
  - right. inversion T; subst. destruct O as [O|O]; [discriminate|].
    assert (trie c) as Tc by (rewrite Forall_forall in *; eauto using nth_error_In).
    assert (32 <= blen (enc c)) as B by (destruct (N.le_gt_cases 32 (blen (enc c))) as [|S]; [assumption|]; pose proof (small_below c q s A Tc S); lia).
    assert (at_path (NBranch l v) [N.of_nat i] c) as Ac by (econstructor; [eassumption|constructor]).
    assert (at_path t (path ++ [N.of_nat i]) c) as Atc by (eapply at_app; eassumption).
    assert (enters c (path ++ [N.of_nat i]) = true) as En.
    { unfold enters. destruct (N.ltb_spec (blen (enc c)) 32); [lia|]. cbn [negb andb].
      rewrite (inside_mono (path ++ N.of_nat i :: q) (path ++ [N.of_nat i]) s); [| |assumption|exists q; now rewrite <- app_assoc].
      - assert (db (keccak (enc c)) <> None) as D by (apply (Way [N.of_nat i] c); auto; [now exists q|discriminate]). destruct (db (keccak (enc c))); [reflexivity|congruence].
      - change (N.of_nat i :: q) with ([N.of_nat i] ++ q). rewrite app_assoc. eapply at_app; eassumption. }
    cbn [children_of]. assert (List.In (path ++ N.of_nat i :: q) (map tp_path (visits c (path ++ [N.of_nat i]) (above ++ [enc (NBranch l v)])))) as G.
    { change (N.of_nat i :: q) with ([N.of_nat i] ++ q). rewrite app_assoc. apply IH; auto; [now rewrite <- app_assoc|].
      intros q' u Q B' [z ->] NE. apply (Way (N.of_nat i :: q') u); auto; [econstructor; eassumption|now exists z|discriminate]. }
    apply in_map_iff in G. destruct G as (x & Ex & G). apply in_map_iff. exists x. split; [assumption|]. apply in_flat_map.
    exists (c, path ++ [N.of_nat i], above ++ [enc (NBranch l v)]). split; [|exact G]. apply in_flat_map. exists (i, c). split; [now apply enumerate_in|].
    unfold child_of. cbn [fst snd]. rewrite En. now left.
Qed.

(** ** The order of the visits *)
Lemma visits_under n : forall path above i, In i (visits n path above) -> extends (tp_path i) path.
Proof.
  induction n as [|k v|p c IH|l v IH|h] using node_ind'; intros path above i H;
    match type of H with In i (visits ?n ?p ?a) => change (visits n p a) with (vis (n, p, a)) in H end;
    rewrite visits_eq in H; destruct H as [<-|H]; try (exists []; cbn [item tp_path]; now rewrite app_nil_r); cbn [children_of flat_map] in H; try easy.
  - destruct (enters c (path ++ p)) eqn:E; [|easy]. cbn [flat_map vis] in H. rewrite app_nil_r in H. apply IH in H. destruct H as [z ->].
    exists (p ++ z). now rewrite app_assoc.
  - apply in_flat_map in H. destruct H as (e & I & H). apply in_flat_map in I. destruct I as ([j c] & I & J). unfold child_of in J. cbn [fst snd] in J.
    destruct (enters c (path ++ [N.of_nat j])) eqn:E; [|easy]. destruct J as [<-|[]]. apply enumerate_in in I. cbn [vis] in H.
    rewrite Forall_forall in IH. apply (IH c (nth_error_In _ _ I)) in H. destruct H as [z ->]. exists ([N.of_nat j] ++ z). now rewrite app_assoc.
Qed.

Lemma visits_sorted n : trie n -> forall path above, StronglySorted before (map tp_path (visits n path above)).
Proof.
  induction n as [|k v|p c IH|l v IH|h] using node_ind'; intros T path above;
    match goal with |- StronglySorted _ (map _ (visits ?n ?p ?a)) => change (visits n p a) with (vis (n, p, a)) end;
    rewrite visits_eq; cbn [map item tp_path children_of flat_map]; try (constructor; constructor).
  - inversion T; subst. destruct (enters c (path ++ p)); cbn [flat_map map vis]; [|constructor; constructor]. rewrite app_nil_r. constructor; [auto|].
    apply Forall_forall. intros x X. apply in_map_iff in X. destruct X as (i & <- & I). apply visits_under in I. destruct I as [z ->].
    destruct p as [|y p]; [congruence|]. rewrite <- app_assoc. apply before_ext.
  - inversion T; subst. set (proof := above ++ [enc (NBranch l v)]).
    assert (forall k, StronglySorted before (map tp_path (flat_map vis (flat_map (child_of path proof) (combine (seq k (length l)) l)))) /\
      forall i, In i (flat_map vis (flat_map (child_of path proof) (combine (seq k (length l)) l))) -> exists j z, (k <= j)%nat /\ tp_path i = path ++ N.of_nat j :: z) as G.
    { clear T H1 H3. assert (Forall trie l) as Fl by assumption. clear H2. clearbody proof. revert IH Fl. induction l as [|c l IHl]; intros IH Fl k; [split; [constructor|easy]|].
      inversion IH as [|? ? I1 I2]; subst. inversion Fl as [|? ? F1 F2]; subst. destruct (IHl I2 F2 (S k)) as [S1 S2]. clear IHl.
      cbn [length seq combine flat_map]. unfold child_of at 1 3. cbn [fst snd]. destruct (enters c (path ++ [N.of_nat k])); cbn [app flat_map vis].
      - split.
        + rewrite map_app. apply sorted_app; [auto|assumption|]. intros x y X Y. apply in_map_iff in X, Y. destruct X as (i & <- & I), Y as (j & <- & J).
          apply visits_under in I. destruct I as [z ->]. apply S2 in J. destruct J as (m & y & M & ->). rewrite <- app_assoc. apply before_app. constructor. lia.
        + intros i I. apply in_app_iff in I. destruct I as [I|I].
          * apply visits_under in I. destruct I as [z ->]. exists k, z. split; [lia|]. now rewrite <- app_assoc.
          * apply S2 in I. destruct I as (j & z & J & E). exists j, z. split; [lia|assumption].
      - split; [assumption|]. intros i I. apply S2 in I. destruct I as (j & z & J & E). exists j, z. split; [lia|assumption]. }
    destruct (G 0%nat) as [S1 S2]. unfold enumerate. constructor; [assumption|]. apply Forall_forall. intros x X. apply in_map_iff in X.
    destruct X as (i & <- & I). apply S2 in I. destruct I as (j & z & _ & ->). apply before_ext.
Qed.

(** ** All together *)
Definition shown (i : trie_proof) : Prop :=
  exists s nodes, own_entry keccak t (tp_path i) s /\ tp_proof i = enc t :: nodes /\
    (forall rest, follow keccak decode_node (enc t) (tp_path i ++ rest) nodes = Ok (enc s, rest)) /\
    (length nodes <= length (tp_path i))%nat /\ Forall (fun x => exists q u, at_path t q u /\ x = enc u) nodes.

Lemma inside_takes p s : at_path t p s -> inside p = true <-> takes_in f p.
Proof.
  intros A. unfold inside, takes_in. destruct f as [g|]; [|tauto]. destruct (filter_contains g p) as [b| |]; split; try discriminate; congruence.
Qed.
Lemma inside_top : inside [] = true.
Proof.
  unfold inside. destruct f as [g|]; [|reflexivity]. destruct Hf as (H1 & H2 & _). rewrite (proj2 (contains_iff g [] ltac:(constructor) ltac:(cbn; lia) H1 H2)); [reflexivity|].
  destruct (num_path 64 (f_start g)) as (k & L & F & V); [change (16 ^ N.of_nat 64) with (2 ^ 256); lia|].
  exists k. split; [split; assumption|]. split; [now exists k|]. lia.
Qed.

Lemma walk_all : db (keccak (enc t)) = Some (enc t) ->
  exists items, (forall l, walks decode_node db (mk_walker pt [mk_tp [] [enc t]] f) l <-> l = items) /\
    StronglySorted before (map tp_path items) /\
    (forall p, In p (map tp_path items) <-> (exists s, own_entry keccak t p s) /\ way_there keccak db t p /\ takes_in f p) /\
    Forall shown items.
Proof.
  intros D. exists (visits t [] []).
  assert (walks decode_node db (mk_walker pt [mk_tp [] [enc t]] f) (visits t [] [])) as W.
  { pose proof (walk_run _ [(t, [], [])] (le_n _)) as W. cbn [flat_map vis map item app] in W. rewrite app_nil_r in W. apply W. constructor; [|constructor]. split; [constructor|auto]. }
  split; [intros l; split; [intros W'; eapply walks_det; eauto|intros ->; exact W]|].
  split; [apply visits_sorted, Tt|]. split.
  - intros p. split.
    + intros I. apply in_map_iff in I. destruct I as (i & <- & I).
      destruct (visits_found t Tt [] [] i (at_top t) I) as (r & s & nodes & E1 & E2 & A & F & L & Fa & Ins & Way). cbn [app] in *. rewrite E1. split; [|split].
      * exists s. split; [assumption|]. tauto.
      * intros q u Ex [Aq O]. destruct (list_eq_dec N.eq_dec q []) as [->|Nq].
        -- assert (u = t) as -> by (eapply at_det; [exact Aq|exact Tt|constructor]). congruence.
        -- apply (Way q u); auto. tauto.
      * apply (inside_takes r s A). destruct Ins as [->|[_ Ins]]; [apply inside_top|exact Ins].
    + intros ((s & A & O) & Way & Ti). apply (visits_complete t p s A Tt [] [] (at_top t)); [assumption|now apply (inside_takes p s A)|].
      intros q u Aq B Ex Nq. apply (Way q u Ex). split; auto.
  - apply Forall_forall. intros i I. destruct (visits_found t Tt [] [] i (at_top t) I) as (r & s & nodes & E1 & E2 & A & F & L & Fa & Ins & Way).
    cbn [app] in *. exists s, nodes. rewrite E1. split; [split; [assumption|]; tauto|]. auto.
Qed.

Lemma shown_proves i : shown i -> proves keccak decode_node t i.
Proof.
  intros (s & nodes & O & E & F & L & Fa). exists s. split; [assumption|]. specialize (F []). rewrite app_nil_r in F. split.
  - rewrite E, last_cons. symmetry. eapply follow_last; eauto.
  - unfold validate_node_trie_proof, validate_trie_proof. rewrite E. replace (check_node_hash keccak (enc t) (root_hash keccak t)) with (Ok tt) by (symmetry; apply check_ok; reflexivity).
    cbn [obind]. rewrite F. cbn [obind snd fst is_nil negb]. apply check_ok. reflexivity.
Qed.
End Walk.
