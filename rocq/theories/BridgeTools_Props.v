(** The tools of the bridge. *)
From Verif Require Import Base Distance_Proofs AcceptCodes_Model AcceptCodes_Proofs BridgeTools_Model BridgeTools_Spec.

Lemma lxor_ge_sub a b : a - b <= N.lxor a b.
Proof.
  pose proof (lxor_le_add b (N.lxor a b)) as H.
  replace (N.lxor b (N.lxor a b)) with a in H; [lia|].
  now rewrite (N.lxor_comm a b), <- N.lxor_assoc, N.lxor_nilpotent, N.lxor_0_l.
Qed.
Lemma lxor_first_byte x y : first_byte (N.lxor x y) = N.lxor (first_byte x) (first_byte y).
Proof. unfold first_byte. rewrite <- !N.shiftr_div_pow2. apply N.shiftr_lxor. Qed.

Lemma prefixes_nth step : forall n root j, (j < n)%nat -> root < 256 ->
  nth_error (prefixes step n root) j = Some ((root + N.of_nat (S j) * N.of_nat step) mod 256).
Proof.
  induction n as [|n IH]; intros root j L R; [lia|]. cbn [prefixes]. cbv zeta. destruct j as [|j].
  - cbn [nth_error]. f_equal. f_equal. lia.
  - cbn [nth_error]. rewrite IH by (try apply N.mod_upper_bound; lia). f_equal.
    rewrite N.add_mod_idemp_l by lia. f_equal. lia.
Qed.
Lemma prefixes_len step : forall n root, length (prefixes step n root) = n.
Proof. induction n as [|n IH]; intros root; cbn; [reflexivity|]. now rewrite IH. Qed.
Lemma draw_in {K} p : forall (draws : list (N * K)) x rest, draw p draws = Some (x, rest) -> In x draws /\ first_byte (fst x) = p /\ incl rest draws.
Proof.
  induction draws as [|[id k] draws IH]; cbn; intros x rest H; [discriminate|].
  destruct (N.eqb_spec (first_byte id) p) as [E|E].
  - injection H as <- <-. split; [auto|]. split; [exact E|]. intros y; now right.
  - apply IH in H as (A & B & C). split; [auto|]. split; [exact B|]. intros y Y. right. auto.
Qed.
Lemma draw_all_spec {K} : forall ps (draws : list (N * K)) l, draw_all ps draws = Some l ->
  length l = length ps /\ incl l draws /\ forall j p x, nth_error ps j = Some p -> nth_error l j = Some x -> first_byte (fst x) = p.
Proof.
  induction ps as [|p ps IH]; cbn [draw_all]; intros draws l H.
  - injection H as <-. split; [reflexivity|]. split; [intros y []|]. intros [|j] p x; discriminate.
  - destruct (draw p draws) as [[x rest]|] eqn:D; [|discriminate]. destruct (draw_all ps rest) as [m|] eqn:A; [|discriminate]. injection H as <-.
    apply draw_in in D as (D1 & D2 & D3). apply IH in A as (A1 & A2 & A3). split; [cbn; lia|]. split.
    + intros y [<-|Y]; auto.
    + intros [|j] q y; cbn; [intros [= <-] [= <-]; exact D2|apply A3].
Qed.

(** A root key that is a key of the curve and is given comes first; the others are drawn at random.  The first byte of the j-th id is that of
    the first plus j steps of 255/count, around the circle of bytes.  There are [count] keys, but one for a count of 0. *)
Theorem C120_keys : forall K (id_of : K -> option N) count root draws l,
  (forall x, In x draws -> fst x < 2 ^ 256) -> (forall k id, id_of k = Some id -> id < 2 ^ 256) ->
  spaced_keys id_of count root draws = Ok (Some l) ->
  length l = N.to_nat (N.max 1 count)
  /\ (forall k, root = Some k -> exists id, nth_error l 0 = Some (id, k) /\ id_of k = Some id)
  /\ (forall x, In x l -> In x draws \/ root = Some (snd x))
  /\ (forall x, In x l -> fst x < 2 ^ 256)
  /\ forall r j x, nth_error l 0 = Some r -> nth_error l j = Some x ->
       first_byte (fst x) = (first_byte (fst r) + N.of_nat j * (255 / count)) mod 256.
Proof.
  intros K id_of count root draws l R RI H.
  assert (G : forall (r : N * K) ds, fst r < 2 ^ 256 -> incl ds draws ->
     match draw_all (prefixes (N.to_nat (255 / count)) (N.to_nat (count - 1)) (first_byte (fst r))) ds with Some m => Some (r :: m) | None => None end = Some l ->
     length l = N.to_nat (N.max 1 count) /\ nth_error l 0 = Some r /\ (forall x, In x l -> x = r \/ In x draws)
     /\ (forall j x, nth_error l j = Some x -> first_byte (fst x) = (first_byte (fst r) + N.of_nat j * (255 / count)) mod 256)).
  { intros r ds B I E. destruct (draw_all _ ds) as [m|] eqn:D; [|discriminate]. injection E as <-. apply draw_all_spec in D as (D1 & D2 & D3).
    rewrite prefixes_len in D1.
    assert (FB : first_byte (fst r) < 256).
    { unfold first_byte. apply N.div_lt_upper_bound; [apply N.pow_nonzero; lia|]. change (2 ^ 248 * 256) with (2 ^ 256). exact B. }
    split; [cbn [length]; lia|]. split; [reflexivity|]. split; [intros x [<-|X]; auto|].
    intros [|j] x X.
    - cbn in X. injection X as <-. rewrite N.mul_0_l, N.add_0_r, N.mod_small; auto.
    - cbn [nth_error] in X. assert (J : (j < length m)%nat) by (apply nth_error_Some; congruence).
      rewrite (D3 j _ x (prefixes_nth (N.to_nat (255 / count)) (N.to_nat (count - 1)) _ j ltac:(lia) FB) X). f_equal. f_equal. rewrite N2Nat.id. reflexivity. }
  unfold spaced_keys in H. cbv zeta in H. destruct root as [k|].
  - destruct (id_of k) as [id|] eqn:ID; [|discriminate]. injection H as H. destruct (G (id, k) draws (RI _ _ ID) (incl_refl _) H) as (G1 & G2 & G3 & G4).
    split; [exact G1|]. split; [intros k' [= <-]; eauto|]. split; [intros x X; destruct (G3 x X) as [->|Y]; auto|].
    split; [intros x X; destruct (G3 x X) as [->|Y]; [cbn; eauto|auto]|].
    intros r j x Z X. assert (r = (id, k)) as -> by congruence. auto.
  - destruct draws as [|r ds]; [discriminate|]. injection H as H.
    destruct (G r ds (R r (or_introl eq_refl)) (fun y Y => or_intror Y) H) as (G1 & G2 & G3 & G4).
    split; [exact G1|]. split; [discriminate|]. split; [intros x X; destruct (G3 x X) as [->|Y]; left; [now left|exact Y]|].
    split; [intros x X; destruct (G3 x X) as [->|Y]; apply R; [now left|exact Y]|].
    intros r' j x Z X. assert (r' = r) as -> by congruence. auto.
Qed.
Print Assumptions C120_keys.

Lemma circle_apart root i j n step : root < 256 -> i < j -> j < n -> n * step <= 255 ->
  let a := (root + i * step) mod 256 in let b := (root + j * step) mod 256 in step <= b - a \/ step <= a - b.
Proof.
  intros R I J S. cbv zeta.
  assert (D : i * step + step <= j * step) by nia.
  assert (M : j * step + step <= 255) by nia.
  revert D M. generalize (i * step) (j * step). intros u v D M.
  assert (X : forall w, w <= 255 -> (root + w) mod 256 = root + w \/ (256 <= root + w /\ (root + w) mod 256 = root + w - 256)).
  { intros w W. destruct (N.lt_ge_cases (root + w) 256) as [L|L]; [left; now apply N.mod_small|right]. split; [exact L|].
    symmetry. apply (N.mod_unique _ _ 1); lia. }
  destruct (X u ltac:(lia)) as [->|[U ->]], (X v ltac:(lia)) as [->|[V ->]]; lia.
Qed.
Lemma byte_apart a b step : step <= b - a \/ step <= a - b -> step <= N.lxor a b.
Proof. intros [H|H]; [rewrite N.lxor_comm|]; eapply N.le_trans; [exact H|apply lxor_ge_sub|exact H|apply lxor_ge_sub]. Qed.
Lemma half_spread count : 1 <= count <= 255 -> 256 <= 2 * count * (255 / count).
Proof.
  intros C. pose proof (N.div_mod 255 count ltac:(lia)) as D. pose proof (N.mod_upper_bound 255 count ltac:(lia)) as U.
  destruct (N.le_gt_cases count 127) as [L|L]; [nia|]. assert (1 <= 255 / count) by (apply N.div_le_lower_bound; lia). nia.
Qed.

(** Any two of the ids are further from each other than half of an even share of all distances. *)
Theorem C120_spread : forall K (id_of : K -> option N) count root draws l,
  (forall x, In x draws -> fst x < 2 ^ 256) -> (forall k id, id_of k = Some id -> id < 2 ^ 256) ->
  count <= 255 -> spaced_keys id_of count root draws = Ok (Some l) ->
  forall i j x y, i <> j -> nth_error l i = Some x -> nth_error l j = Some y ->
    (2 ^ 256 - 1) / count / 2 < N.lxor (fst x) (fst y).
Proof.
  intros K id_of count root draws l R RI C H.
  destruct (C120_keys K id_of count root draws l R RI H) as (L & _ & _ & B & F).
  assert (W : forall i j x y, (i < j)%nat -> nth_error l i = Some x -> nth_error l j = Some y ->
     (2 ^ 256 - 1) / count / 2 < N.lxor (fst x) (fst y)).
  2:{ intros i j x y D X Y. destruct (Nat.lt_ge_cases i j) as [Lt|Ge]; [eauto|]. rewrite N.lxor_comm. apply (W j i); auto; lia. }
  intros i j x y D X Y.
  assert (J : (j < length l)%nat) by (apply nth_error_Some; congruence). rewrite L in J.
  assert (Z : exists r, nth_error l 0 = Some r). { destruct l as [|r l]; [destruct i; discriminate|exists r; reflexivity]. }
  destruct Z as (r & Z). pose proof (F r i x Z X) as FX. pose proof (F r j y Z Y) as FY.
  assert (FB : first_byte (fst r) < 256).
  { unfold first_byte. apply N.div_lt_upper_bound; [apply N.pow_nonzero; lia|]. change (2 ^ 248 * 256) with (2 ^ 256). apply B. eapply nth_error_In; eauto. }
  assert (C1 : 1 <= count) by lia.
  assert (S : count * (255 / count) <= 255) by (apply N.mul_div_le; lia).
  pose proof (circle_apart (first_byte (fst r)) (N.of_nat i) (N.of_nat j) count (255 / count) FB ltac:(lia) ltac:(lia) S) as A. cbv zeta in A.
  rewrite <- FX, <- FY in A. apply byte_apart in A. rewrite <- lxor_first_byte in A. unfold first_byte in A.
  pose proof (half_spread count (conj C1 C)) as HS.
  revert A HS. generalize (N.lxor (fst x) (fst y)) (255 / count). intros d s A HS.
  rewrite N.div_div by lia. apply N.div_lt_upper_bound; [lia|].
  assert (E : 2 ^ 248 * s <= d).
  { eapply N.le_trans; [apply N.mul_le_mono_l; exact A|]. apply N.mul_div_le. apply N.pow_nonzero; lia. }
  assert (P : 2 ^ 256 = 256 * 2 ^ 248) by reflexivity. rewrite P. assert (Q : 0 < 2 ^ 248) by reflexivity.
  revert E Q. generalize (2 ^ 248). clear -HS C1. intros t E Q.
  assert (256 * t <= 2 * count * s * t) by (apply N.mul_le_mono_r; exact HS).
  assert (2 * count * s * t <= count * 2 * d) by nia. lia.
Qed.
Print Assumptions C120_spread.

(** From 128 keys on all the ids start within [count] neighbouring bytes after the first: for 128 half of the ids of all nodes has none. *)
Theorem C120_even_refuted : forall K (id_of : K -> option N) count root draws l,
  (forall x, In x draws -> fst x < 2 ^ 256) -> (forall k id, id_of k = Some id -> id < 2 ^ 256) ->
  128 <= count <= 255 -> spaced_keys id_of count root draws = Ok (Some l) ->
  forall r x, nth_error l 0 = Some r -> In x l ->
    exists d, d < count /\ first_byte (fst x) = (first_byte (fst r) + d) mod 256.
Proof.
  intros K id_of count root draws l R RI C H r x Z X.
  destruct (C120_keys K id_of count root draws l R RI H) as (L & _ & _ & B & F).
  apply In_nth_error in X as (j & X). assert (J : (j < length l)%nat) by (apply nth_error_Some; congruence).
  exists (N.of_nat j). split; [lia|]. rewrite (F r j x Z X). replace (255 / count) with 1; [now rewrite N.mul_1_r|].
  apply (N.div_unique _ _ _ (255 - count)); lia.
Qed.
Print Assumptions C120_even_refuted.

(** The pace. *)
Lemma update_step a b : update_time a -> update_time b -> a < b -> a + 12000000000 <= b.
Proof. intros (k & ->) (m & ->) H. lia. Qed.
Lemma update_plus a k : update_time a -> update_time (a + 12000000000 * k).
Proof. intros (m & ->). exists (m + k). lia. Qed.
Lemma slot_length_is : slot_length = 12000000000.
Proof. reflexivity. Qed.
Lemma wait_loop_spec fuel now : forall i next k d,
  (forall i, now i <= now (S i)) -> update_time next -> next < now i + 12000000000 ->
  wait_loop fuel now i next = Some (k, d) -> first_from (now k) (now k + d) /\ d < 12000000000 /\ (i <= k)%nat.
Proof.
  induction fuel as [|fuel IH]; intros i next k d M U B H; [discriminate|]. cbn [wait_loop] in H.
  destruct (N.leb_spec (now i) next) as [L|L].
  - injection H as <- <-. replace (now i + (next - now i)) with next by lia. split; [|lia]. split; [exact U|]. split; [exact L|].
    intros u V W. destruct (N.le_gt_cases next u) as [G|G]; [exact G|]. pose proof (update_step u next V U G). lia.
  - rewrite slot_length_is in H. apply IH in H as (A & Bd & C); auto.
    + split; [exact A|]. split; [exact Bd|lia].
    + replace 12000000000 with (12000000000 * 1) by lia. now apply update_plus.
    + pose proof (M i). lia.
Qed.

(** However the clock moves on while it is read, the bridge waits until the first time that is four seconds into a slot, less than a slot. *)
Theorem C120_wait : forall fuel now k d,
  (forall i, now i <= now (S i)) -> now 0%nat / 12000000000 < 2 ^ 32 ->
  until_next_update fuel now = Some (k, d) -> first_from (now k) (now k + d) /\ d < 12000000000.
Proof.
  intros fuel now k d M S H. unfold until_next_update, slot_time, current_slot in H. rewrite slot_length_is in H.
  rewrite N.div_div in H by (vm_compute; discriminate). change (second * 12) with 12000000000 in H.
  rewrite N.mod_small in H by exact S. change (4 * second) with 4000000000 in H.
  apply wait_loop_spec in H as (A & B & _); auto; [eexists; reflexivity|].
  pose proof (M 0%nat). assert (12000000000 * (now 0%nat / 12000000000) <= now 0%nat) by (apply N.mul_div_le; lia). lia.
Qed.
Print Assumptions C120_wait.

(** It comes to an end in two rounds if the readings are less than four seconds apart. *)
Theorem C120_wait_ends : forall now fuel, now 0%nat / 12000000000 < 2 ^ 32 -> (2 <= fuel)%nat ->
  now 1%nat <= now 0%nat + 4000000000 -> now 2%nat <= now 0%nat + 4000000000 ->
  exists k d, until_next_update fuel now = Some (k, d) /\ (k <= 2)%nat.
Proof.
  intros now fuel S F A B. unfold until_next_update, slot_time, current_slot. rewrite slot_length_is.
  rewrite N.div_div by (vm_compute; discriminate). change (second * 12) with 12000000000. rewrite N.mod_small by exact S.
  change (4 * second) with 4000000000. destruct fuel as [|[|fuel]]; try lia. cbn [wait_loop]. rewrite slot_length_is.
  assert (X : now 0%nat < 12000000000 * (now 0%nat / 12000000000) + 12000000000).
  { pose proof (N.mul_succ_div_gt (now 0%nat) 12000000000 ltac:(lia)). lia. }
  revert X. generalize (12000000000 * (now 0%nat / 12000000000)). intros b X.
  destruct (now 1%nat <=? b + 4000000000); [do 2 eexists; split; [reflexivity|lia]|].
  destruct (N.leb_spec (now 2%nat) (b + 4000000000 + 12000000000)) as [L|L]; [do 2 eexists; split; [reflexivity|lia]|lia].
Qed.
Print Assumptions C120_wait_ends.

Lemma next_tick_spec d n : update_time d -> d <= n -> first_after n (next_tick d n).
Proof.
  intros U L. unfold next_tick. rewrite slot_length_is. unfold tolerance. change (5 * 10 ^ 6) with 5000000.
  assert (G : forall q, q = d + 12000000000 * ((n - d) / 12000000000) + 12000000000 -> first_after n q).
  { intros q ->. pose proof (N.mul_div_le (n - d) 12000000000 ltac:(lia)). pose proof (N.mul_succ_div_gt (n - d) 12000000000 ltac:(lia)).
    assert (V : update_time (d + 12000000000 * ((n - d) / 12000000000) + 12000000000)).
    { replace (d + 12000000000 * ((n - d) / 12000000000) + 12000000000) with (d + 12000000000 * ((n - d) / 12000000000 + 1)) by lia. now apply update_plus. }
    split; [exact V|]. split; [lia|]. intros u W X. destruct (N.le_gt_cases (d + 12000000000 * ((n - d) / 12000000000) + 12000000000) u) as [Y|Y]; [exact Y|].
    pose proof (update_step _ _ W V Y). lia. }
  destruct (N.ltb_spec (d + 5000000) n) as [T|T]; apply G.
  - pose proof (N.div_mod (n - d) 12000000000 ltac:(lia)). pose proof (N.mod_upper_bound (n - d) 12000000000 ltac:(lia)). lia.
  - rewrite N.div_small by lia. lia.
Qed.
Lemma due_update start late k : update_time start -> update_time (due start late k).
Proof. intros U. induction k as [|k IH]; cbn [due]; [exact U|]. apply (next_tick_spec _ _ IH). lia. Qed.

(** From then on the bridge serves once for each slot: every round is due at the first update time after the round before came, however late that
    was.  If no round is a slot late, round k is for the k-th slot from the start. *)
Theorem C120_rounds : forall start late, update_time start ->
  (forall k, first_after (tick start late k) (due start late (S k)))
  /\ ((forall k, late k < 12000000000) -> forall k, due start late k = start + 12000000000 * N.of_nat k).
Proof.
  intros start late U. split.
  - intros k. cbn [due]. apply next_tick_spec; [now apply due_update|lia].
  - intros L k. induction k as [|k IH]; [cbn; lia|]. cbn [due].
    destruct (next_tick_spec (due start late k) (due start late k + late k) (due_update _ _ _ U) ltac:(lia)) as (A & B & C).
    specialize (L k). pose proof (due_update start late k U) as D.
    pose proof (update_step _ _ D A ltac:(lia)) as E.
    assert (F : update_time (due start late k + 12000000000)).
    { replace 12000000000 with (12000000000 * 1) by lia. now apply update_plus. }
    pose proof (C _ F ltac:(lia)). lia.
Qed.
Print Assumptions C120_rounds.

(** A round that is a slot late or more leaves out the slots in between. *)
Theorem C120_late_refuted : forall start late k u, update_time start -> update_time u ->
  due start late k < u <= tick start late k -> forall j, due start late j <> u.
Proof.
  intros start late k u U V [A B].
  destruct (C120_rounds start late U) as [R _].
  assert (M : forall i j, (i <= j)%nat -> due start late i <= due start late j).
  { intros i j H. induction H as [|j H IH]; [lia|]. destruct (R j) as (_ & X & _). unfold tick in X. lia. }
  intros j E. destruct (Nat.le_gt_cases j k) as [L|L].
  - pose proof (M j k L). lia.
  - pose proof (M (S k) j L). destruct (R k) as (_ & X & _). lia.
Qed.
Print Assumptions C120_late_refuted.

(** Reports. *)
Section Report.
Context {P : Type}.
Notation answers := (list (P * option accept_code)).
Lemma parts (l : answers) : (length (accepts l) + length (failures l) + length (declines l) = length l)%nat.
Proof.
  induction l as [|[p [c|]] l IH]; cbn; [reflexivity| |].
  - unfold accepts, failures, declines in *. cbn. destruct c; cbn; rewrite ?app_length; cbn; lia.
  - unfold accepts, failures, declines in *. cbn. lia.
Qed.
Lemma kinds_app (l1 l2 : answers) : accepts (l1 ++ l2) = accepts l1 ++ accepts l2 /\ declines (l1 ++ l2) = declines l1 ++ declines l2 /\ failures (l1 ++ l2) = failures l1 ++ failures l2.
Proof. unfold accepts, declines, failures. now rewrite !flat_map_app. Qed.
Lemma update_tells n (l : answers) r p a : tells n l r ->
  tells n (l ++ [(p, a)]) (fst (update r p a))
  /\ snd (update r p a) = (if n =? N.of_nat (S (length l)) then Some (fst (update r p a)) else None).
Proof.
  intros (T & A & D & F).
  assert (X : tells n (l ++ [(p, a)]) (fst (update r p a))).
  { destruct (kinds_app l [(p, a)]) as (E1 & E2 & E3). unfold tells. rewrite E1, E2, E3, app_length. unfold update. cbv zeta. cbn [fst].
    destruct a as [c|]; [destruct c|]; cbn; rewrite ?app_nil_r, ?Nat.add_0_r; repeat split; auto; rewrite ?D, ?F; auto; lia. }
  split; [exact X|]. destruct X as (T' & A' & D' & F').
  assert (E : snd (update r p a) = if total (fst (update r p a)) =? accepted (fst (update r p a)) + N.of_nat (length (failed (fst (update r p a)))) + N.of_nat (length (declined (fst (update r p a)))) then Some (fst (update r p a)) else None) by reflexivity.
  rewrite E, T', A', D', F'. pose proof (parts (l ++ [(p, a)])) as Q. rewrite app_length in Q. cbn [length] in Q.
  replace (N.of_nat (length (accepts (l ++ [(p, a)]))) + N.of_nat (length (failures (l ++ [(p, a)]))) + N.of_nat (length (declines (l ++ [(p, a)]))))
    with (N.of_nat (S (length l))) by lia. reflexivity.
Qed.
Lemma updates_tells n : forall (l : answers) before r, tells n before r ->
  tells n (before ++ l) (fst (updates r l))
  /\ length (snd (updates r l)) = length l
  /\ forall i o, nth_error (snd (updates r l)) i = Some o ->
       (n = N.of_nat (length before + S i) -> exists q, o = Some q /\ tells n (before ++ firstn (S i) l) q)
       /\ (n <> N.of_nat (length before + S i) -> o = None).
Proof.
  induction l as [|[p a] l IH]; intros before r T; cbn [updates].
  - cbn. rewrite app_nil_r. split; [exact T|]. split; [reflexivity|]. intros [|i] o; discriminate.
  - destruct (update_tells n before r p a T) as [U O]. destruct (update r p a) as [r' o'] eqn:E. cbn [fst snd] in U, O.
    destruct (IH (before ++ [(p, a)]) r' U) as (A & B & C). destruct (updates r' l) as [r2 os]. cbn [fst snd] in *.
    rewrite <- app_assoc in A. split; [exact A|]. split; [cbn; lia|]. intros [|i] o H; cbn [nth_error] in H.
    + injection H as <-. rewrite O. cbn [firstn]. destruct (N.eqb_spec n (N.of_nat (S (length before)))) as [Q|Q].
      * split; [intros _; eauto|]. intros N. destruct N. lia.
      * split; [intros N; destruct Q; lia|reflexivity].
    + destruct (C i o H) as [C1 C2]. rewrite app_length in C1, C2. cbn [length] in C1, C2. split.
      * intros N. destruct C1 as (q & -> & Q); [lia|]. exists q. split; [reflexivity|]. rewrite <- app_assoc in Q. exact Q.
      * intros N. apply C2. lia.
Qed.
End Report.

(** For each content a report is printed at the last of the expected answers and at no other, in whatever order the answers come; it says how many accepted, who
    declined why and who failed. *)
Theorem C120_report : forall P n (l : list (P * option accept_code)),
  length (snd (updates (new_report n) l)) = length l
  /\ forall i o, nth_error (snd (updates (new_report n) l)) i = Some o ->
     (n = N.of_nat (S i) -> exists q, o = Some q /\ tells n (firstn (S i) l) q) /\ (n <> N.of_nat (S i) -> o = None).
Proof.
  intros P n l. destruct (updates_tells n l [] (new_report n) ltac:(repeat split)) as (_ & A & B). split; [exact A|exact B].
Qed.
Print Assumptions C120_report.

(** So if every selected peer answers or fails, one report is printed, at the end, and covers all of them; with an answer missing none is. *)
Theorem C120_report_once : forall P (peers : list P) (l : list (P * option accept_code)),
  Permutation (map fst l) peers -> peers <> [] ->
  (exists os q, snd (updates (new_report (N.of_nat (length peers))) l) = os ++ [Some q] /\ (forall o, In o os -> o = None) /\ tells (N.of_nat (length peers)) l q)
  /\ forall l1 l2, l = l1 ++ l2 -> l2 <> [] -> forall o, In o (snd (updates (new_report (N.of_nat (length peers))) l1)) -> o = None.
Proof.
  intros P peers l Pm NE. apply Permutation_length in Pm. rewrite map_length in Pm. split.
  - destruct (C120_report P (N.of_nat (length peers)) l) as [A B]. set (out := snd _) in *.
    assert (exists os o, out = os ++ [o]) as (os & o & E).
    { destruct (rev out) as [|o os] eqn:R; [apply (f_equal (@length _)) in R; rewrite rev_length, A, Pm in R; destruct peers; [contradiction|discriminate]|].
      exists (rev os), o. rewrite <- (rev_involutive out), R. reflexivity. }
    assert (Lo : length l = S (length os)) by (rewrite <- A, E, app_length; cbn; lia).
    assert (I : nth_error out (length os) = Some o) by (rewrite E, nth_error_app2 by lia; now rewrite Nat.sub_diag).
    destruct (B _ _ I) as [C _]. destruct C as (q & -> & T); [lia|]. exists os, q. split; [exact E|]. split.
    + intros x X. apply In_nth_error in X as (i & X). assert (i < length os)%nat by (apply nth_error_Some; congruence).
      destruct (B i x) as [_ D]; [rewrite E; rewrite nth_error_app1 by lia; exact X|]. apply D. lia.
    + rewrite firstn_all2 in T by lia. exact T.
  - intros l1 l2 E N o I. apply In_nth_error in I as (i & I).
    destruct (C120_report P (N.of_nat (length peers)) l1) as [A B]. destruct (B i o I) as [_ C]. apply C.
    rewrite E, app_length in Pm. assert (i < length l1)%nat by (rewrite <- A; apply nth_error_Some; congruence).
    destruct l2; [contradiction|]. cbn in Pm. lia.
Qed.
Print Assumptions C120_report_once.

(** With no peer selected nothing is ever printed. *)
Theorem C120_report_none : forall P (l : list (P * option accept_code)) o, In o (snd (updates (new_report 0) l)) -> o = None.
Proof.
  intros P l o I. apply In_nth_error in I as (i & I). destruct (C120_report P 0 l) as [_ B]. destruct (B i o I) as [_ C]. apply C. lia.
Qed.
Print Assumptions C120_report_none.

Lemma code_dec (a b : accept_code) : {a = b} + {a <> b}.
Proof. decide equality. Qed.
Lemma add_to_spec {P} c (p : P) : forall g,
  (forall d, flat_map snd (filter (fun x => code_eqb d (fst x)) (add_to c p g)) =
     flat_map snd (filter (fun x => code_eqb d (fst x)) g) ++ (if code_eqb d c then [p] else [])  \/ ~ NoDup (map fst g))
  /\ (forall d, In d (map fst (add_to c p g)) <-> d = c \/ In d (map fst g))
  /\ (NoDup (map fst g) -> NoDup (map fst (add_to c p g)))
  /\ ((forall x, In x g -> snd x <> []) -> forall x, In x (add_to c p g) -> snd x <> []).
Proof.
  induction g as [|[e l] g (I1 & I2 & I3 & I4)]; cbn [add_to].
  - repeat split.
    + intros d. left. cbn. destruct (code_eqb d c); reflexivity.
    + intros [<-|[]]. auto.
    + intros [->|[]]. cbn. auto.
    + intros _. cbn. constructor; [intros []|constructor].
    + intros _ x [<-|[]]. discriminate.
  - destruct (code_eqb c e) eqn:Q.
    + apply code_eqb_spec in Q. subst e. repeat split.
      * intros d. cbn. destruct (code_eqb d c) eqn:Q; cbn; [|left; now rewrite app_nil_r].
        apply code_eqb_spec in Q. subst d.
        destruct (in_dec code_dec c (map fst g)) as [Y|Y].
        -- right. intros D. inversion_clear D. auto.
        -- left. assert (Z : filter (fun x : accept_code * list P => code_eqb c (fst x)) g = []).
           { clear -Y. induction g as [|[f m] g IH]; cbn; [reflexivity|]. destruct (code_eqb c f) eqn:F.
             - apply code_eqb_spec in F. destruct Y. cbn. auto.
             - apply IH. cbn in Y. tauto. }
           rewrite Z. cbn. rewrite !app_nil_r. reflexivity.
      * cbn. tauto.
      * cbn. intros [->|H]; auto.
      * cbn. auto.
      * intros N x [<-|X]; [cbn; intros Z; apply app_eq_nil in Z as [_ Z]; discriminate|apply N; now right].
    + repeat split.
      * intros d. cbn [filter fst]. destruct (I1 d) as [H|H]; [|right; intros D; inversion_clear D; auto].
        left. destruct (code_eqb d e); cbn [flat_map snd]; rewrite H; [now rewrite app_assoc|reflexivity].
      * cbn. rewrite I2. tauto.
      * cbn. rewrite I2. tauto.
      * cbn. intros D. inversion_clear D as [|? ? A B]. constructor; [|auto]. rewrite I2. intros [->|H]; [|auto].
        rewrite (proj2 (code_eqb_spec c c) eq_refl) in Q. discriminate.
      * intros N x [<-|X]; [apply N; now left|]. apply I4; auto. intros y Y. apply N. now right.
Qed.
(** The reasons: every peer that declined is in the group of its reason, once for each time it declined and in order, no group is empty, and no reason has two groups. *)
Theorem C120_reasons : forall P (l : list (P * accept_code)),
  NoDup (map fst (groups l))
  /\ (forall x, In x (groups l) -> snd x <> [])
  /\ (forall c ps, In (c, ps) (groups l) -> ps = map fst (filter (fun x => code_eqb c (snd x)) l))
  /\ (forall p c, In (p, c) l -> exists ps, In (c, ps) (groups l) /\ In p ps)
  /\ (groups l = [] <-> l = []).
Proof.
  intros P l. unfold groups.
  assert (G : NoDup (map fst (fold_left (fun g '(p, c) => add_to c p g) l []))
     /\ (forall x, In x (fold_left (fun g '(p, c) => add_to c p g) l []) -> snd x <> [])
     /\ (forall c, flat_map snd (filter (fun x => code_eqb c (fst x)) (fold_left (fun g '(p, c) => add_to c p g) l [])) = map fst (filter (fun x => code_eqb c (snd x)) l))
     /\ (forall c, In c (map fst (fold_left (fun g '(p, c) => add_to c p g) l [])) <-> In c (map snd l))).
  { induction l as [|[p c] l (I1 & I2 & I3 & I4)] using rev_ind.
    - cbn. repeat split; auto. constructor.
    - rewrite fold_left_app. cbn [fold_left]. set (g := fold_left _ l []) in *. destruct (add_to_spec c p g) as (A1 & A2 & A3 & A4).
      split; [auto|]. split; [auto|]. split.
      + intros d. destruct (A1 d) as [H|H]; [|contradiction]. rewrite H, I3, filter_app, map_app. cbn. destruct (code_eqb d c); reflexivity.
      + intros d. rewrite A2, I4, map_app, in_app_iff. cbn. split; [intros [->|H]; auto|intros [H|[->|[]]]; auto]. }
  destruct G as (G1 & G2 & G3 & G4). set (g := fold_left _ l []) in *.
  assert (U : forall c ps, In (c, ps) g -> ps = map fst (filter (fun x => code_eqb c (snd x)) l)).
  { intros c ps I. rewrite <- G3. clear G2 G3 G4. clearbody g. induction g as [|[d qs] g IH]; [destruct I|]. cbn in G1. inversion_clear G1 as [|? ? A B].
    assert (NE : forall g' : list (accept_code * list P), ~ In c (map fst g') -> flat_map snd (filter (fun x => code_eqb c (fst x)) g') = []).
    { clear. induction g' as [|[f m] g' IH]; cbn; [reflexivity|]. intros H. destruct (code_eqb c f) eqn:F; [apply code_eqb_spec in F; destruct H; auto|apply IH; tauto]. }
    destruct I as [[= -> ->]|I].
    - cbn. rewrite (proj2 (code_eqb_spec c c) eq_refl). cbn. now rewrite (NE g A), app_nil_r.
    - cbn [filter fst]. destruct (code_eqb c d) eqn:Q; [|auto]. apply code_eqb_spec in Q. subst d. destruct A. now apply (in_map fst) in I. }
  split; [exact G1|]. split; [exact G2|]. split; [exact U|]. split.
  - intros p c I. assert (In c (map fst g)) as J by (apply G4; now apply (in_map snd) in I).
    apply in_map_iff in J as ([d ps] & D & J). cbn in D. subst d. exists ps. split; [exact J|]. rewrite (U c ps J).
    apply in_map_iff. exists (p, c). split; [reflexivity|]. apply filter_In. split; [exact I|]. now apply code_eqb_spec.
  - split; [|intros E; subst g; rewrite E; reflexivity]. intros E. destruct l as [|[p c] l]; [reflexivity|]. exfalso.
    assert (In c (map fst g)) as J by (apply G4; now left). rewrite E in J. destruct J.
Qed.
Print Assumptions C120_reasons.

(** Three keys around the circle, a wait of a second, a late round, a report of three answers. *)
Example C120_keys_example :
  spaced_keys (fun k : N => if k =? 5 then Some (10 * 2 ^ 248 + 7) else None) 3 (Some 5) [(1, 1); (95 * 2 ^ 248, 2); (95 * 2 ^ 248 + 1, 3); (180 * 2 ^ 248, 4)]
    = Ok (Some [(10 * 2 ^ 248 + 7, 5); (95 * 2 ^ 248, 2); (180 * 2 ^ 248, 4)])
  /\ spaced_keys (fun _ : N => None) 0 None [(1, 1)] = Ok (Some [(1, 1)])
  /\ spaced_keys (fun _ : N => None) 3 (Some 5) [] = Panic.
Proof. vm_compute. auto. Qed.
Example C120_pace_example :
  until_next_update 5 (fun i => 27 * 10 ^ 9) = Some (1%nat, 10 ^ 9)
  /\ until_next_update 5 (fun i => 29 * 10 ^ 9) = Some (2%nat, 11 * 10 ^ 9)
  /\ due 4000000000 (fun k => if (k =? 1)%nat then 13000000000 else 0) 2 = 40000000000
  /\ update_time 4000000000.
Proof. split; [vm_compute; reflexivity|]. split; [vm_compute; reflexivity|]. split; [vm_compute; reflexivity|]. exists 0. reflexivity. Qed.
Example C120_report_example :
  map (option_map (fun r => (accepted r, declined r, failed r))) (snd (updates (new_report 3) [(1, Some RateLimited); (2, None); (3, Some Accepted)]))
    = [None; None; Some (1, [(1, RateLimited)], [2])]
  /\ groups [(1, RateLimited); (2, AlreadyStored); (3, RateLimited)] = [(RateLimited, [1; 3]); (AlreadyStored, [2])].
Proof. vm_compute. auto. Qed.
