(** Lemmas about the tasks of the bridge from history files. *)
From Verif Require Import Base AcceptCodes_Model Keys_Model Header_Model LegacyHistory_Model E2Store_Model EraFiles_Model E2hsBridge_Model E2hsBridge_Spec.

Lemma set_len {A} (x y : A) : forall l i, nth_error l i = Some y -> length (set_nth i x l) = length l.
Proof. unfold set_nth. induction l as [|z l IH]; intros [|i] H; try discriminate; cbn [firstn skipn app length]; [reflexivity|]. f_equal. apply IH. exact H. Qed.
Lemma set_at {A} (x y : A) : forall l i j, nth_error l i = Some y -> nth_error (set_nth i x l) j = if (j =? i)%nat then Some x else nth_error l j.
Proof.
  unfold set_nth. induction l as [|z l IH]; intros [|i] j H; try discriminate; cbn [firstn skipn app].
  - destruct j; reflexivity.
  - destruct j as [|j]; [reflexivity|]. cbn [nth_error Nat.eqb]. apply IH. exact H.
Qed.
Lemma set_sum {A} (f : A -> nat) (x y : A) : forall l i, nth_error l i = Some y -> (list_sum (map f (set_nth i x l)) + f y = list_sum (map f l) + f x)%nat.
Proof.
  unfold set_nth. induction l as [|z l IH]; intros [|i] H; try discriminate; cbn [firstn skipn app map list_sum fold_right nth_error] in *.
  - injection H as ->. lia.
  - specialize (IH i H). unfold list_sum in IH. lia.
Qed.
Lemma set_map {A B} (f : A -> B) (x y : A) : forall l i, nth_error l i = Some y -> f x = f y -> map f (set_nth i x l) = map f l.
Proof. unfold set_nth. induction l as [|z l IH]; intros [|i] H E; try discriminate; cbn [firstn skipn app map nth_error] in *; [injection H as ->; rewrite E; reflexivity|]. f_equal. apply IH; assumption. Qed.
Lemma sum_nth {A} (f : A -> nat) (y : A) : forall l i, nth_error l i = Some y -> (f y <= list_sum (map f l))%nat.
Proof. induction l as [|z l IH]; intros [|i] H; try discriminate; cbn [map list_sum fold_right nth_error] in *; [injection H as ->; lia|]. specialize (IH i H). unfold list_sum in IH. lia. Qed.
Lemma sum_pos {A} (f : A -> nat) : forall l, (0 < list_sum (map f l))%nat -> exists i y, nth_error l i = Some y /\ (0 < f y)%nat.
Proof. induction l as [|z l IH]; cbn [map list_sum fold_right]; intros H; [lia|]. destruct (f z) eqn:E; [|exists 0%nat, z; split; [reflexivity|lia]]. destruct IH as (i & y & H1 & H2); [unfold list_sum; lia|]. exists (S i), y. auto. Qed.
Lemma sum_app {A} (f : A -> nat) a b : list_sum (map f (a ++ b)) = (list_sum (map f a) + list_sum (map f b))%nat.
Proof. rewrite map_app, list_sum_app. reflexivity. Qed.
Lemma remove_perm {A} (x : A) : forall l j, nth_error l j = Some x -> Permutation l (x :: remove_nth j l).
Proof.
  unfold remove_nth. induction l as [|z l IH]; intros [|j] H; try discriminate; cbn [firstn skipn app nth_error] in *; [injection H as ->; reflexivity|]. apply IH in H. apply Permutation_trans with (z :: x :: firstn j l ++ skipn (S j) l); [constructor; exact H|constructor].
Qed.
Lemma remove_len {A} (x : A) l j : nth_error l j = Some x -> length l = S (length (remove_nth j l)).
Proof. intros H. apply remove_perm, Permutation_length in H. exact H. Qed.

Lemma rev_case {A} (l : list A) : l = [] \/ exists l' x, l = l' ++ [x].
Proof. destruct l as [|x l] using rev_ind; eauto. Qed.

Section Tasks.
Context {T P : Type} (msg : T -> nat -> legacy_key * bytes) (limit : nat).
Notation run := (@run T P msg limit).
Notation step := (@step T P msg limit).

Lemma run_snoc todo ops o : run todo (ops ++ [o]) = next msg limit (run todo ops) o.
Proof. unfold E2hsBridge_Model.run. rewrite fold_left_app. reflexivity. Qed.
(** Induction over runs *)
Lemma run_ind (Q : list (op P) -> gossip T P -> list (event P) -> Prop) todo :
  Q [] (start todo) [] -> (forall ops g tr o g' ev, run todo ops = Some (g, tr) -> Q ops g tr -> step g o = Some (g', ev) -> Q (ops ++ [o]) g' (tr ++ ev)) ->
  forall ops g tr, run todo ops = Some (g, tr) -> Q ops g tr.
Proof.
  intros H0 Hs ops. induction ops as [|o ops IH] using rev_ind; intros g tr H.
  - injection H as <- <-. exact H0.
  - rewrite run_snoc in H. unfold next in H. destruct (run todo ops) as [[g0 tr0]|] eqn:R; [|discriminate]. destruct (step g0 o) as [[g1 ev]|] eqn:S; [|discriminate]. injection H as <- <-. apply Hs with g0; auto.
Qed.

(** The steps *)
Inductive moved (g : gossip T P) : op P -> gossip T P -> list (event P) -> Prop :=
| m_spawn e b r : g_todo g = Spawn e b :: r -> (active g < limit)%nat -> moved g Main {| g_todo := r; g_tasks := g_tasks g ++ [new_task e b]; g_report := g_report g |} []
| m_await e r : g_todo g = Await e :: r -> (forall t, In t (g_tasks g) -> tk_epoch t = e -> tk_done t = true) -> moved g Main {| g_todo := r; g_tasks := g_tasks g; g_report := g_report g |} []
| m_crash r : g_todo g = Crash :: r -> moved g Main {| g_todo := []; g_tasks := g_tasks g; g_report := g_report g |} [Crashed]
| m_report r : g_todo g = Report :: r -> moved g Main {| g_todo := r; g_tasks := g_tasks g; g_report := g_report g |} [Reported (g_report g)]
| m_begin i t w ps : nth_error (g_tasks g) i = Some t -> tk_content t w = Waiting -> moved g (Begin i w ps) (set_task g i (set_content t w (Going ps []))) [Began i w ps]
| m_send i t w p q f : nth_error (g_tasks g) i = Some t -> tk_content t w = Going (p :: q) f -> (in_flight g < limit)%nat ->
    moved g (Send i w) (set_task g i (set_content t w (Going q (f ++ [p])))) [Offered i w p (fst (msg (tk_block t) w)) (snd (msg (tk_block t) w))]
| m_answer i t w j a q f p : nth_error (g_tasks g) i = Some t -> tk_content t w = Going q f -> nth_error f j = Some p ->
    moved g (Answer i w j a) {| g_todo := g_todo g; g_tasks := set_nth i (set_content t w (Going q (remove_nth j f))) (g_tasks g); g_report := count_answer (g_report g) a |} [Answered i w p a]
| m_next i t : nth_error (g_tasks g) i = Some t -> tk_content t 0%nat = Going [] [] -> tk_content t 1%nat = Idle -> moved g (Next i) (set_task g i (set_content t 1%nat Waiting)) []
| m_wake i t : nth_error (g_tasks g) i = Some t -> tk_content t 1%nat <> Idle -> tk_content t 2%nat = Idle -> moved g (Wake i) (set_task g i (set_content (set_content t 2%nat Waiting) 3%nat Waiting)) []
| m_done i t : nth_error (g_tasks g) i = Some t -> tk_content t 1%nat = Going [] [] -> tk_content t 2%nat = Going [] [] -> tk_content t 3%nat = Going [] [] -> tk_done t = false ->
    moved g (Done i) (set_task g i {| tk_epoch := tk_epoch t; tk_block := tk_block t; tk_content := tk_content t; tk_done := true |}) [].
Lemma finished_eq (c : @content P) : is_finished c = true <-> c = Going [] [].
Proof. destruct c as [| |[|p q] [|r f]]; cbn; split; intros H; congruence. Qed.
Lemma idle_eq (c : @content P) : is_idle c = true <-> c = Idle.
Proof. destruct c; cbn; split; intros H; congruence. Qed.
Lemma step_moved g o g' ev : step g o = Some (g', ev) <-> moved g o g' ev.
Proof.
  split.
  - unfold E2hsBridge_Model.step. destruct o as [|i w ps|i w|i w j a|i|i|i]; cbn [task_of].
    1: { unfold main_step. destruct (g_todo g) as [|[e b|e| |] r] eqn:E; [discriminate| | | |].
      - destruct (Nat.ltb_spec (active g) limit); [|discriminate]. intros [= <- <-]. apply m_spawn with (1 := E); assumption.
      - destruct (forallb _ _) eqn:F; [|discriminate]. intros [= <- <-]. apply m_await with (1 := E). intros t I Et. rewrite forallb_forall in F. apply F in I. rewrite Et, N.eqb_refl in I. exact I.
      - intros [= <- <-]. apply m_crash with (1 := E).
      - intros [= <- <-]. apply m_report with (1 := E). }
    all: destruct (nth_error (g_tasks g) i) as [t|] eqn:N; [|discriminate]; cbn [task_step].
    + destruct (tk_content t w) eqn:C; try discriminate. intros [= <- <-]. apply m_begin; assumption.
    + destruct (tk_content t w) as [| |[|p q] f] eqn:C; try discriminate. destruct (Nat.ltb_spec (in_flight g) limit); [|discriminate]. intros [= <- <-]. apply m_send; assumption.
    + destruct (tk_content t w) as [| |q f] eqn:C; try discriminate. destruct (nth_error f j) as [p|] eqn:J; [|discriminate]. intros [= <- <-]. eapply m_answer; eassumption.
    + destruct (is_finished _) eqn:E1; [|discriminate]. destruct (is_idle _) eqn:E2; [|discriminate]. intros [= <- <-]. apply finished_eq in E1. apply idle_eq in E2. apply m_next; assumption.
    + destruct (is_idle (tk_content t 1%nat)) eqn:E1; [discriminate|]. cbn [negb andb]; destruct (is_idle (tk_content t 2%nat)) eqn:E2; [|discriminate]. intros [= <- <-]. apply idle_eq in E2. apply m_wake; [assumption| |assumption]. intros Q. rewrite Q in E1. discriminate.
    + destruct (is_finished (tk_content t 1%nat)) eqn:E1; [|discriminate]. destruct (is_finished (tk_content t 2%nat)) eqn:E2; [|discriminate]. destruct (is_finished (tk_content t 3%nat)) eqn:E3; [|discriminate]. cbn [andb].
      destruct (tk_done t) eqn:D; [discriminate|]. intros [= <- <-]. apply finished_eq in E1, E2, E3. apply m_done; assumption.
  - intros M. unfold E2hsBridge_Model.step. destruct M as [e b r E L|e r E F|r E|r E|i t w ps N C|i t w p q f N C L|i t w j a q f p N C J|i t N C0 C1|i t N C1 C2|i t N C1 C2 C3 D]; cbn [task_of]; try rewrite N; cbn [task_step]; unfold main_step; try rewrite E.
    + apply Nat.ltb_lt in L. rewrite L. reflexivity.
    + replace (forallb _ _) with true; [reflexivity|]. symmetry. apply forallb_forall. intros t I. destruct (N.eqb_spec (tk_epoch t) e) as [Et|]; [|reflexivity]. rewrite (F t I Et). reflexivity.
    + reflexivity.
    + reflexivity.
    + rewrite C. reflexivity.
    + rewrite C. apply Nat.ltb_lt in L. rewrite L. reflexivity.
    + rewrite C, J. reflexivity.
    + rewrite C0, C1. reflexivity.
    + rewrite C2. destruct (tk_content t 1%nat); [contradiction|reflexivity|reflexivity].
    + rewrite C1, C2, C3, D. reflexivity.
Qed.

(** *** The shape of a task *)
Record shaped (t : task T P) : Prop := {
  sh_hash : tk_content t 0%nat <> Idle;
  sh_number : tk_content t 1%nat <> Idle -> tk_content t 0%nat = Going [] [];
  sh_body : tk_content t 2%nat <> Idle -> tk_content t 1%nat <> Idle;
  sh_receipts : tk_content t 3%nat <> Idle <-> tk_content t 2%nat <> Idle;
  sh_other : forall w, (3 < w)%nat -> tk_content t w = Idle;
  sh_done : tk_done t = true -> tk_content t 1%nat = Going [] [] /\ tk_content t 2%nat = Going [] [] /\ tk_content t 3%nat = Going [] [] }.
Lemma moved_tasks g o g' ev : moved g o g' ev -> (forall t, In t (g_tasks g) -> shaped t) -> forall t, In t (g_tasks g') -> shaped t.
Proof.
  intros M F. assert (S : forall i t t', nth_error (g_tasks g) i = Some t -> (shaped t -> shaped t') -> forall x, In x (set_nth i t' (g_tasks g)) -> shaped x).
  { intros i t t' N H x I. apply In_nth_error in I as (j & I). rewrite (set_at t' t _ _ _ N) in I. destruct (j =? i)%nat; [injection I as <-; apply H, F; eapply nth_error_In; exact N|apply F; eapply nth_error_In; exact I]. }
  destruct M as [e b r E L|e r E Fe|r E|r E|i t w ps N C|i t w p q f N C L|i t w j a q f p N C J|i t N C0 C1|i t N C1 C2|i t N C1 C2 C3 D]; try exact F.
  - cbn [g_tasks]. intros t I. apply in_app_iff in I as [I|[<-|[]]]; [apply F; exact I|]. constructor; cbn; try discriminate; try tauto. intros w Hw. destruct (w =? 0)%nat eqn:Q; [apply Nat.eqb_eq in Q; lia|reflexivity].
  - apply (S i t _ N). intros [S1 S2 S3 S4 S5 S6]. assert (W : (w = 0 \/ w = 1 \/ w = 2 \/ w = 3 \/ 3 < w)%nat) by lia.
    assert (D : tk_done t = false) by (destruct (tk_done t); [|reflexivity]; destruct (S6 eq_refl) as (X & Y & Z); destruct W as [-> |[-> |[-> |[-> |W]]]]; try congruence; [destruct (tk_content t 1%nat) eqn:Q; try discriminate; rewrite S2 in C by congruence; discriminate|rewrite S5 in C by exact W; discriminate]).
    destruct W as [-> |[-> |[-> |[-> |W]]]]; [| | | |rewrite S5 in C by exact W; discriminate]; constructor; cbn; try (rewrite D; discriminate); try discriminate; try assumption; try (intros w Hw; do 4 (destruct w as [|w]; [lia|]); cbn; apply S5; lia).
    + intros X. apply S2 in X. congruence.
    + intros _. apply S2. congruence.
    + intros _. apply S3. congruence.
    + split; [discriminate|]. intros _. apply S4. congruence.
    + split; [|discriminate]. intros _. apply S4. congruence.
  - apply (S i t _ N). intros [S1 S2 S3 S4 S5 S6]. assert (W : (w = 0 \/ w = 1 \/ w = 2 \/ w = 3 \/ 3 < w)%nat) by lia.
    assert (D : tk_done t = false) by (destruct (tk_done t); [|reflexivity]; destruct (S6 eq_refl) as (X & Y & Z); destruct W as [-> |[-> |[-> |[-> |W]]]]; try congruence; [destruct (tk_content t 1%nat) eqn:Q; try discriminate; rewrite S2 in C by congruence; discriminate|rewrite S5 in C by exact W; discriminate]).
    destruct W as [-> |[-> |[-> |[-> |W]]]]; [| | | |rewrite S5 in C by exact W; discriminate]; constructor; cbn; try (rewrite D; discriminate); try discriminate; try assumption; try (intros w Hw; do 4 (destruct w as [|w]; [lia|]); cbn; apply S5; lia).
    + intros X. apply S2 in X. congruence.
    + intros _. apply S2. congruence.
    + intros _. apply S3. congruence.
    + split; [discriminate|]. intros _. apply S4. congruence.
    + split; [|discriminate]. intros _. apply S4. congruence.
  - apply (S i t _ N). intros [S1 S2 S3 S4 S5 S6]. assert (W : (w = 0 \/ w = 1 \/ w = 2 \/ w = 3 \/ 3 < w)%nat) by lia. assert (Fn : f <> []) by (intros ->; destruct j; discriminate).
    assert (D : tk_done t = false) by (destruct (tk_done t); [|reflexivity]; destruct (S6 eq_refl) as (X & Y & Z); destruct W as [-> |[-> |[-> |[-> |W]]]]; try congruence; [destruct (tk_content t 1%nat) eqn:Q; try discriminate; rewrite S2 in C by congruence; congruence|rewrite S5 in C by exact W; discriminate]).
    destruct W as [-> |[-> |[-> |[-> |W]]]]; [| | | |rewrite S5 in C by exact W; discriminate]; constructor; cbn; try (rewrite D; discriminate); try discriminate; try assumption; try (intros w Hw; do 4 (destruct w as [|w]; [lia|]); cbn; apply S5; lia).
    + intros X. apply S2 in X. congruence.
    + intros _. apply S2. congruence.
    + intros _. apply S3. congruence.
    + split; [discriminate|]. intros _. apply S4. congruence.
    + split; [|discriminate]. intros _. apply S4. congruence.
  - apply (S i t _ N). intros [S1 S2 S3 S4 S5 S6]. assert (I2 : tk_content t 2%nat = Idle) by (destruct (tk_content t 2%nat) eqn:Q; [reflexivity| |]; exfalso; apply S3; congruence).
    constructor; cbn; [exact S1|auto|intros _; discriminate|exact S4|intros w Hw; do 4 (destruct w as [|w]; [lia|]); cbn; apply S5; lia|intros X; apply S6 in X as (X & _); congruence].
  - apply (S i t _ N). intros [S1 S2 S3 S4 S5 S6]. constructor; cbn; [exact S1|exact S2|intros _; exact C1|split; intros; discriminate|intros w Hw; do 4 (destruct w as [|w]; [lia|]); cbn; apply S5; lia|intros X; apply S6 in X as (_ & X & _); congruence].
  - apply (S i t _ N). intros [S1 S2 S3 S4 S5 S6]. constructor; cbn; auto.
Qed.
Lemma run_shaped todo ops g tr : run todo ops = Some (g, tr) -> forall t, In t (g_tasks g) -> shaped t.
Proof. revert ops g tr. apply (run_ind (fun _ g _ => forall t, In t (g_tasks g) -> shaped t)); [intros t []|]. intros ops g tr o g' ev _ F S. apply step_moved in S. apply (moved_tasks _ _ _ _ S F). Qed.

(** *** What the trace says about a content *)
Definition content_at (g : gossip T P) (i w : nat) : @content P := match nth_error (g_tasks g) i with Some t => tk_content t w | None => Idle end.
Definition told (tr : list (event P)) (i w : nat) (c : @content P) : Prop :=
  match c with
  | Idle | Waiting => chosen i w tr = [] /\ offered i w tr = [] /\ answered i w tr = []
  | Going q f => exists ps, chosen i w tr = [ps] /\ offered i w tr ++ q = ps /\ Permutation (offered i w tr) (answered i w tr ++ f)
  end.
Lemma chosen_app i w a b : chosen i w (a ++ b) = @chosen P i w a ++ chosen i w b. Proof. unfold chosen. apply flat_map_app. Qed.
Lemma offered_app i w a b : offered i w (a ++ b) = @offered P i w a ++ offered i w b. Proof. unfold offered. apply flat_map_app. Qed.
Lemma answered_app i w a b : answered i w (a ++ b) = @answered P i w a ++ answered i w b. Proof. unfold answered. apply flat_map_app. Qed.
(** an event about another content *)
Definition about (e : event P) : option (nat * nat) := match e with Began i w _ | Offered i w _ _ _ | Answered i w _ _ => Some (i, w) | _ => None end.
Lemma told_other tr i w c e : about e <> Some (i, w) -> told tr i w c -> told (tr ++ [e]) i w c.
Proof.
  intros H. assert (E : chosen i w [e] = [] /\ offered i w [e] = [] /\ answered i w [e] = []).
  { destruct e as [i' w' ps|i' w' p k v|i' w' p a| |]; cbn in *; auto; destruct (Nat.eqb_spec i' i) as [-> |]; cbn; auto; destruct (Nat.eqb_spec w' w) as [-> |]; cbn; auto; contradiction. }
  destruct E as (E1 & E2 & E3). unfold told. rewrite !chosen_app, !offered_app, !answered_app, E1, E2, E3, !app_nil_r. auto.
Qed.
Lemma told_same tr i w c : told tr i w c -> told (tr ++ []) i w c. Proof. rewrite app_nil_r. auto. Qed.
Lemma at_set (g : gossip T P) i t t' todo c j w : nth_error (g_tasks g) i = Some t -> content_at {| g_todo := todo; g_tasks := set_nth i t' (g_tasks g); g_report := c |} j w = if (j =? i)%nat then tk_content t' w else content_at g j w.
Proof. intros N. unfold content_at. cbn [g_tasks]. rewrite (set_at t' t _ _ _ N). destruct (j =? i)%nat; reflexivity. Qed.
Lemma at_task g i t w : nth_error (g_tasks g) i = Some t -> content_at g i w = tk_content t w.
Proof. intros N. unfold content_at. rewrite N. reflexivity. Qed.
Lemma self_chosen i w ps : chosen i w [@Began P i w ps] = [ps]. Proof. cbn. rewrite !Nat.eqb_refl. reflexivity. Qed.
Lemma self_offered i w p k v : offered i w [@Offered P i w p k v] = [p]. Proof. cbn. rewrite !Nat.eqb_refl. reflexivity. Qed.
Lemma self_answered i w p a : answered i w [@Answered P i w p a] = [p]. Proof. cbn. rewrite !Nat.eqb_refl. reflexivity. Qed.
Lemma run_told todo ops g tr : run todo ops = Some (g, tr) -> forall i w, told tr i w (content_at g i w).
Proof.
  revert ops g tr. apply (run_ind (fun _ g tr => forall i w, told tr i w (content_at g i w))).
  { intros i w. unfold content_at. cbn [start g_tasks]. destruct i; cbn; auto. }
  intros ops g tr o g' ev R H S i w. pose proof (run_shaped _ _ _ _ R) as Sh. apply step_moved in S.
  destruct S as [e b r E L|e r E Fe|r E|r E|j t u ps N C|j t u p q f N C L|j t u k a q f p N C J|j t N C0 C1|j t N C1 C2|j t N C1 C2 C3 D].
  - apply told_same. specialize (H i w). unfold content_at in *. cbn [g_tasks]. destruct (Nat.lt_ge_cases i (length (g_tasks g))) as [Li|Li].
    + rewrite nth_error_app1 by exact Li. exact H.
    + rewrite nth_error_app2 by exact Li. replace (nth_error (g_tasks g) i) with (@None (task T P)) in H by (symmetry; apply nth_error_None; exact Li).
      destruct (i - length (g_tasks g))%nat as [|n]; cbn [nth_error]; [|destruct n; exact H]. cbn [new_task tk_content]. destruct (w =? 0)%nat; exact H.
  - apply told_same. exact (H i w).
  - apply told_other; [discriminate|exact (H i w)].
  - apply told_other; [discriminate|exact (H i w)].
  - unfold set_task. rewrite (at_set _ _ _ _ _ _ _ _ N). destruct (Nat.eqb_spec i j) as [-> |Ni]; [|apply told_other; [cbn; congruence|exact (H i w)]]. cbn [set_content tk_content].
    destruct (Nat.eqb_spec w u) as [-> |Nw]; [|apply told_other; [cbn; congruence|rewrite <- (at_task g j t w N); exact (H j w)]].
    specialize (H j u). rewrite (at_task g j t u N), C in H. destruct H as (H1 & H2 & H3). exists ps. rewrite chosen_app, offered_app, answered_app, H1, H2, H3, self_chosen. cbn. auto.
  - unfold set_task. rewrite (at_set _ _ _ _ _ _ _ _ N). destruct (Nat.eqb_spec i j) as [-> |Ni]; [|apply told_other; [cbn; congruence|exact (H i w)]]. cbn [set_content tk_content].
    destruct (Nat.eqb_spec w u) as [-> |Nw]; [|apply told_other; [cbn; congruence|rewrite <- (at_task g j t w N); exact (H j w)]].
    specialize (H j u). rewrite (at_task g j t u N), C in H. destruct H as (ps & H1 & H2 & H3). exists ps. rewrite chosen_app, offered_app, answered_app, self_offered. cbn [chosen answered flat_map]. rewrite !app_nil_r. split; [exact H1|]. split; [rewrite <- app_assoc; exact H2|].
    rewrite app_assoc. apply Permutation_app_tail. exact H3.
  - rewrite (at_set _ _ _ _ _ _ _ _ N). destruct (Nat.eqb_spec i j) as [-> |Ni]; [|apply told_other; [cbn; congruence|exact (H i w)]]. cbn [set_content tk_content].
    destruct (Nat.eqb_spec w u) as [-> |Nw]; [|apply told_other; [cbn; congruence|rewrite <- (at_task g j t w N); exact (H j w)]].
    specialize (H j u). rewrite (at_task g j t u N), C in H. destruct H as (ps & H1 & H2 & H3). exists ps. rewrite chosen_app, offered_app, answered_app, self_answered. cbn [chosen offered flat_map]. rewrite !app_nil_r. split; [exact H1|]. split; [exact H2|].
    apply remove_perm in J. rewrite H3, <- app_assoc. apply Permutation_app_head. cbn [app]. exact J.
  - apply told_same. unfold set_task. rewrite (at_set _ _ _ _ _ _ _ _ N). specialize (H i w). destruct (Nat.eqb_spec i j) as [-> |Ni]; [|exact H]. rewrite (at_task g j t w N) in H. cbn [set_content tk_content].
    destruct (Nat.eqb_spec w 1) as [-> |Nw]; [|exact H]. rewrite C1 in H. exact H.
  - apply told_same. unfold set_task. rewrite (at_set _ _ _ _ _ _ _ _ N). specialize (H i w). destruct (Nat.eqb_spec i j) as [-> |Ni]; [|exact H]. rewrite (at_task g j t w N) in H. cbn [set_content tk_content].
    destruct (Nat.eqb_spec w 3) as [-> |Nw]; [|destruct (Nat.eqb_spec w 2) as [-> |Nw2]; [rewrite C2 in H; exact H|exact H]].
    assert (C3 : tk_content t 3%nat = Idle) by (destruct (tk_content t 3%nat) eqn:Q; [reflexivity| |]; exfalso; apply (proj1 (sh_receipts t (Sh t (nth_error_In _ _ N)))); congruence). rewrite C3 in H. exact H.
  - apply told_same. unfold set_task. rewrite (at_set _ _ _ _ _ _ _ _ N). specialize (H i w). destruct (Nat.eqb_spec i j) as [-> |Ni]; [|exact H]. rewrite (at_task g j t w N) in H. exact H.
Qed.

(** *** Traces that are cut *)
Lemma one_event g o g' ev : step g o = Some (g', ev) -> ev = [] \/ exists e, ev = [e].
Proof. intros S. apply step_moved in S. destruct S; eauto. Qed.
Lemma run_prefix todo ops g tr : run todo ops = Some (g, tr) -> forall a b, tr = a ++ b -> exists ops1 g1, run todo ops1 = Some (g1, a).
Proof.
  revert ops g tr. apply (run_ind (fun _ _ tr => forall a b, tr = a ++ b -> exists ops1 g1, run todo ops1 = Some (g1, a))).
  - intros a b H. symmetry in H. apply app_eq_nil in H as [-> ->]. exists [], (start todo). reflexivity.
  - intros ops g tr o g' ev R H S a b E. destruct (rev_case b) as [-> | (b' & e & ->)].
    + rewrite app_nil_r in E. subst a. exists (ops ++ [o]), g'. rewrite run_snoc, R. cbn [next]. rewrite S. reflexivity.
    + destruct (one_event _ _ _ _ S) as [-> | (e' & ->)]; [rewrite app_nil_r in E; exact (H a (b' ++ [e]) E)|]. rewrite app_assoc in E. apply app_inj_tail in E as [E _]. exact (H a b' E).
Qed.
Lemma run_event todo ops g tr : run todo ops = Some (g, tr) -> forall a e b, tr = a ++ e :: b -> exists ops1 g1 o g2, run todo ops1 = Some (g1, a) /\ step g1 o = Some (g2, [e]).
Proof.
  revert ops g tr. apply (run_ind (fun _ _ tr => forall a e b, tr = a ++ e :: b -> exists ops1 g1 o g2, run todo ops1 = Some (g1, a) /\ step g1 o = Some (g2, [e]))).
  - intros a e b H. destruct a; discriminate.
  - intros ops g tr o g' ev R H S a e b E. destruct (one_event _ _ _ _ S) as [-> | (e' & ->)]; [rewrite app_nil_r in E; exact (H a e b E)|].
    destruct (rev_case b) as [-> | (b' & x & ->)].
    + apply app_inj_tail in E as [-> ->]. exists ops, g, o, g'. auto.
    + rewrite app_comm_cons, app_assoc in E. apply app_inj_tail in E as [E _]. exact (H a e b' E).
Qed.

(** *** Counting *)
Lemma in_flight_set (g : gossip T P) i t t' todo c : nth_error (g_tasks g) i = Some t -> (in_flight {| g_todo := todo; g_tasks := set_nth i t' (g_tasks g); g_report := c |} + task_flying t = in_flight g + task_flying t')%nat.
Proof. intros N. unfold in_flight. cbn [g_tasks]. apply set_sum. exact N. Qed.
Lemma flying_set (t : task T P) w c : (w <= 3)%nat -> (task_flying (set_content t w c) + flying (tk_content t w) = task_flying t + flying c)%nat.
Proof. intros H. unfold task_flying. cbn [set_content tk_content]. assert (W : (w = 0 \/ w = 1 \/ w = 2 \/ w = 3)%nat) by lia. destruct W as [-> |[-> |[-> | ->]]]; cbn [Nat.eqb]; lia. Qed.
Lemma shaped_le t w : shaped t -> tk_content t w <> Idle -> (w <= 3)%nat.
Proof. intros S H. destruct (Nat.le_gt_cases w 3) as [L|L]; [exact L|]. exfalso. apply H, (sh_other t S). lia. Qed.
Lemma offers_app a b : offers (a ++ b) = (@offers P a + offers b)%nat. Proof. apply sum_app. Qed.
Lemma answers_app a b : answers (a ++ b) = @answers P a ++ answers b. Proof. apply flat_map_app. Qed.
Lemma offers_one (e : event P) : offers [e] = match e with Offered _ _ _ _ _ => 1%nat | _ => 0%nat end. Proof. destruct e; reflexivity. Qed.
Lemma answers_one (e : event P) : answers [e] = match e with Answered _ _ _ a => [a] | _ => [] end. Proof. destruct e; reflexivity. Qed.
Lemma offers_nil : @offers P [] = 0%nat. Proof. reflexivity. Qed.
Lemma answers_nil : @answers P [] = []. Proof. reflexivity. Qed.
Lemma filter_snoc {A} (f : A -> bool) l x : length (filter f (l ++ [x])) = (length (filter f l) + (if f x then 1 else 0))%nat.
Proof. rewrite filter_app, app_length. cbn. destruct (f x); reflexivity. Qed.
Lemma counts_same (tr : list (event P)) e : answers [e] = [] -> counts (tr ++ [e]) = counts tr.
Proof. intros H. unfold counts. rewrite answers_app, H, app_nil_r. reflexivity. Qed.
Lemma run_counts todo ops g tr : run todo ops = Some (g, tr) -> offers tr = (length (answers tr) + in_flight g)%nat /\ (in_flight g <= limit)%nat /\ g_report g = counts tr.
Proof.
  revert ops g tr. apply (run_ind (fun _ g tr => offers tr = (length (answers tr) + in_flight g)%nat /\ (in_flight g <= limit)%nat /\ g_report g = counts tr)).
  { split; [reflexivity|]. split; [cbn; lia|reflexivity]. }
  intros ops g tr o g' ev R (H1 & H2 & H3) S. pose proof (run_shaped _ _ _ _ R) as Sh. apply step_moved in S. rewrite offers_app, answers_app, app_length.
  destruct S as [e b r E L|e r E Fe|r E|r E|j t u ps N C|j t u p q f N C L|j t u k a q f p N C J|j t N C0 C1|j t N C1 C2|j t N C1 C2 C3 D].
  - rewrite app_nil_r. unfold in_flight in *. cbn [g_tasks g_report]. rewrite sum_app. rewrite ?offers_nil, ?answers_nil, ?offers_one, ?answers_one. change (list_sum (map task_flying [new_task e b])) with 0%nat. cbn [length]. split; [lia|]. split; [lia|exact H3].
  - rewrite app_nil_r. unfold in_flight in *. cbn [g_tasks g_report]. rewrite ?offers_nil, ?answers_nil, ?offers_one, ?answers_one. cbn [length]. split; [lia|]. split; [lia|exact H3].
  - rewrite counts_same by reflexivity. unfold in_flight in *. cbn [g_tasks g_report]. rewrite ?offers_nil, ?answers_nil, ?offers_one, ?answers_one. cbn [length]. split; [lia|]. split; [lia|exact H3].
  - rewrite counts_same by reflexivity. unfold in_flight in *. cbn [g_tasks g_report]. rewrite ?offers_nil, ?answers_nil, ?offers_one, ?answers_one. cbn [length]. split; [lia|]. split; [lia|exact H3].
  - rewrite counts_same by reflexivity. pose proof (in_flight_set g j t (set_content t u (Going ps [])) (g_todo g) (g_report g) N) as I. pose proof (flying_set t u (Going ps []) (shaped_le t u (Sh t (nth_error_In _ _ N)) ltac:(congruence))) as Q. rewrite C in Q. cbn [flying length] in Q.
    unfold set_task. cbn [g_report]. rewrite offers_one, answers_one. cbn [length]. split; [lia|]. split; [lia|exact H3].
  - rewrite counts_same by reflexivity. pose proof (in_flight_set g j t (set_content t u (Going q (f ++ [p]))) (g_todo g) (g_report g) N) as I. pose proof (flying_set t u (Going q (f ++ [p])) (shaped_le t u (Sh t (nth_error_In _ _ N)) ltac:(congruence))) as Q. rewrite C in Q. cbn [flying] in Q. rewrite app_length in Q. cbn [length] in Q.
    unfold set_task. cbn [g_report]. rewrite offers_one, answers_one. cbn [length]. split; [lia|]. split; [lia|exact H3].
  - pose proof (in_flight_set g j t (set_content t u (Going q (remove_nth k f))) (g_todo g) (count_answer (g_report g) a) N) as I. pose proof (flying_set t u (Going q (remove_nth k f)) (shaped_le t u (Sh t (nth_error_In _ _ N)) ltac:(congruence))) as Q. rewrite C in Q. cbn [flying] in Q. rewrite (remove_len p f k J) in Q.
    rewrite offers_one, answers_one. cbn [length]. split; [lia|]. split; [lia|]. cbn [g_report]. rewrite H3. unfold counts. rewrite answers_app. change (answers [Answered j u p a]) with [a]. rewrite !filter_snoc. destruct a as [[]|]; unfold count_answer; cbn [accepted declined failed]; f_equal; lia.
  - rewrite app_nil_r. pose proof (in_flight_set g j t (set_content t 1%nat Waiting) (g_todo g) (g_report g) N) as I. pose proof (flying_set t 1%nat Waiting ltac:(lia)) as Q. rewrite C1 in Q. cbn [flying] in Q. unfold set_task. cbn [g_report]. rewrite ?offers_nil, ?answers_nil, ?offers_one, ?answers_one. cbn [length]. split; [lia|]. split; [lia|exact H3].
  - rewrite app_nil_r. assert (C3 : tk_content t 3%nat = Idle) by (destruct (tk_content t 3%nat) eqn:Q; [reflexivity| |]; exfalso; apply (proj1 (sh_receipts t (Sh t (nth_error_In _ _ N)))); congruence).
    pose proof (in_flight_set g j t (set_content (set_content t 2%nat Waiting) 3%nat Waiting) (g_todo g) (g_report g) N) as I. pose proof (flying_set t 2%nat Waiting ltac:(lia)) as Q. rewrite C2 in Q. pose proof (flying_set (set_content t 2%nat Waiting) 3%nat Waiting ltac:(lia)) as Q3. cbn [set_content tk_content Nat.eqb] in Q3. rewrite C3 in Q3. cbn [flying] in Q, Q3. unfold set_task in *. unfold set_content in *. cbn [g_report tk_content tk_epoch tk_block tk_done] in *. rewrite ?offers_nil, ?answers_nil, ?offers_one, ?answers_one. cbn [length]. split; [lia|]. split; [lia|exact H3].
  - rewrite app_nil_r. pose proof (in_flight_set g j t {| tk_epoch := tk_epoch t; tk_block := tk_block t; tk_content := tk_content t; tk_done := true |} (g_todo g) (g_report g) N) as I. unfold task_flying in I. cbn [tk_content] in I. unfold set_task. cbn [g_report]. rewrite ?offers_nil, ?answers_nil, ?offers_one, ?answers_one. cbn [length]. split; [lia|]. split; [lia|exact H3].
Qed.

Definition live (t : task T P) : nat := if tk_done t then 0 else 1.
Lemma active_sum g : active g = list_sum (map live (g_tasks g)).
Proof. unfold active. induction (g_tasks g) as [|t l IH]; [reflexivity|]. cbn [filter map]. change (list_sum (live t :: map live l)) with (live t + list_sum (map live l))%nat. unfold live at 1. destruct (tk_done t); cbn [negb length]; lia. Qed.
Lemma run_active todo ops g tr : run todo ops = Some (g, tr) -> (active g <= limit)%nat.
Proof.
  revert ops g tr. apply (run_ind (fun _ g _ => (active g <= limit)%nat)); [cbn; lia|]. intros ops g tr o g' ev R H S. apply step_moved in S. rewrite active_sum in *.
  destruct S as [e b r E L|e r E Fe|r E|r E|j t u ps N C|j t u p q f N C L|j t u k a q f p N C J|j t N C0 C1|j t N C1 C2|j t N C1 C2 C3 D]; try exact H; cbn [set_task g_tasks].
  1: rewrite active_sum in L; rewrite sum_app; cbn [map list_sum fold_right live new_task tk_done]; lia.
  all: pose proof (set_sum live) as Q; match goal with |- context [set_nth ?i ?x ?l] => specialize (Q x t l i N) end; unfold live in Q at 2 4; cbn [set_content tk_done] in Q; try rewrite D in Q; lia.
Qed.
(** the blocks that are spawned *)
Lemma run_script todo ops g tr : run todo ops = Some (g, tr) ->
  exists rest, spawned todo = map (@tk_block T P) (g_tasks g) ++ spawned (g_todo g) ++ rest /\ (~ In Crashed tr -> rest = [] /\ exists pre, todo = pre ++ g_todo g) /\ (In Crashed tr -> g_todo g = []).
Proof.
  revert ops g tr. apply (run_ind (fun _ g tr => exists rest, spawned todo = map (@tk_block T P) (g_tasks g) ++ spawned (g_todo g) ++ rest /\ (~ In Crashed tr -> rest = [] /\ exists pre, todo = pre ++ g_todo g) /\ (In Crashed tr -> g_todo g = []))).
  { exists []. split; [symmetry; apply app_nil_r|]. split; [|intros []]. intros _. split; [reflexivity|exists []; reflexivity]. }
  intros ops g tr o g' ev R (rest & H1 & H2 & H3) S. apply step_moved in S.
  assert (Sub : ~ In Crashed (tr ++ ev) -> ~ In Crashed tr) by (intros Nc I; apply Nc, in_or_app; left; exact I).
  assert (K : forall t t' i c, ~ In Crashed ev -> nth_error (g_tasks g) i = Some t -> tk_block t' = tk_block t -> g' = {| g_todo := g_todo g; g_tasks := set_nth i t' (g_tasks g); g_report := c |} ->
    exists rest, spawned todo = map (@tk_block T P) (g_tasks g') ++ spawned (g_todo g') ++ rest /\ (~ In Crashed (tr ++ ev) -> rest = [] /\ exists pre, todo = pre ++ g_todo g') /\ (In Crashed (tr ++ ev) -> g_todo g' = [])).
  { intros t t' i c Ne N Eb ->. exists rest. cbn [g_tasks g_todo]. rewrite (set_map (@tk_block T P) t' t _ _ N Eb). split; [exact H1|]. split; [auto|]. intros I. apply in_app_iff in I as [I|I]; [auto|contradiction]. }
  destruct S as [e b r E L|e r E Fe|r E|r E|j t u ps N C|j t u p q f N C L|j t u k a q f p N C J|j t N C0 C1|j t N C1 C2|j t N C1 C2 C3 D]; try (eapply (K t); [cbn; intuition discriminate|exact N| |reflexivity]; reflexivity); clear K; rewrite E in *; cbn [g_tasks g_todo].
  - exists rest. rewrite map_app. cbn [map new_task tk_block]. split; [rewrite <- app_assoc; exact H1|]. split; [|intros I; rewrite app_nil_r in I; discriminate (H3 I)]. intros Nc. destruct (H2 (Sub Nc)) as (Q & pre & Ep). split; [exact Q|exists (pre ++ [Spawn e b]); rewrite <- app_assoc; exact Ep].
  - exists rest. split; [exact H1|]. split; [|intros I; rewrite app_nil_r in I; discriminate (H3 I)]. intros Nc. destruct (H2 (Sub Nc)) as (Q & pre & Ep). split; [exact Q|exists (pre ++ [Await e]); rewrite <- app_assoc; exact Ep].
  - exists (spawned r ++ rest). split; [exact H1|]. split; [|reflexivity]. intros Nc. exfalso. apply Nc, in_or_app. right. left. reflexivity.
  - exists rest. split; [exact H1|]. split; [|intros I; apply in_app_iff in I as [I|[I|[]]]; [discriminate (H3 I)|discriminate]]. intros Nc. destruct (H2 (Sub Nc)) as (Q & pre & Ep). split; [exact Q|exists (pre ++ [Report]); rewrite <- app_assoc; exact Ep].
Qed.
Lemma run_messages todo ops g tr : run todo ops = Some (g, tr) -> forall i w p k v, In (Offered i w p k v) tr -> (w <= 3)%nat /\ exists b, nth_error (map (@tk_block T P) (g_tasks g)) i = Some b /\ msg b w = (k, v).
Proof.
  revert ops g tr. apply (run_ind (fun _ g tr => forall i w p k v, In (Offered i w p k v) tr -> (w <= 3)%nat /\ exists b, nth_error (map (@tk_block T P) (g_tasks g)) i = Some b /\ msg b w = (k, v))); [intros i w p k v []|].
  intros ops g tr o g' ev R H S. pose proof (run_shaped _ _ _ _ R) as Sh. apply step_moved in S.
  assert (M : forall i b, nth_error (map (@tk_block T P) (g_tasks g)) i = Some b -> nth_error (map (@tk_block T P) (g_tasks g')) i = Some b).
  { intros i b Hb. destruct S as [e b' r E L|e r E Fe|r E|r E|j t u ps N C|j t u p q f N C L|j t u k a q f p N C J|j t N C0 C1|j t N C1 C2|j t N C1 C2 C3 D]; cbn [g_tasks set_task]; try (erewrite set_map; [exact Hb|exact N|reflexivity]); try exact Hb.
    rewrite map_app, nth_error_app1; [exact Hb|]. apply nth_error_Some. rewrite Hb. discriminate. }
  intros i w p k v I. apply in_app_iff in I as [I|I]; [destruct (H i w p k v I) as (Hw & b & Hb & Hm); split; [exact Hw|]; exists b; split; [apply M; exact Hb|exact Hm]|].
  destruct S as [e b' r E L|e r E Fe|r E|r E|j t u ps N C|j t u p' q f N C L|j t u k' a q f p' N C J|j t N C0 C1|j t N C1 C2|j t N C1 C2 C3 D]; try (destruct I; fail); (destruct I as [I|[]]; try discriminate I).
  injection I as -> -> -> <- <-. split; [apply (shaped_le t w (Sh t (nth_error_In _ _ N))); congruence|]. exists (tk_block t). split; [apply M; rewrite nth_error_map, N; reflexivity|]. destruct (msg (tk_block t) w); reflexivity.
Qed.

(** *** The report *)
Definition sound_script (todo : list (action T)) : Prop := (forall a b e t, todo = a ++ Spawn e t :: b -> In (Await e) b) /\ (forall a b, todo = a ++ Report :: b -> b = []).
Lemma run_awaited todo ops g tr : sound_script todo -> run todo ops = Some (g, tr) -> ~ In Crashed tr -> forall t, In t (g_tasks g) -> tk_done t = true \/ In (Await (tk_epoch t)) (g_todo g).
Proof.
  intros [Ss _]. revert ops g tr. apply (run_ind (fun _ g tr => ~ In Crashed tr -> forall t, In t (g_tasks g) -> tk_done t = true \/ In (Await (tk_epoch t)) (g_todo g))); [intros _ t []|].
  intros ops g tr o g' ev R H S Nc. destruct (run_script _ _ _ _ R) as (rs & _ & Sc & _). apply step_moved in S.
  assert (Nc' : ~ In Crashed tr) by (intros I; apply Nc, in_or_app; left; exact I). specialize (H Nc'). destruct (Sc Nc') as (_ & pre & Ep).
  assert (K : forall t t' i c, nth_error (g_tasks g) i = Some t -> tk_epoch t' = tk_epoch t -> (tk_done t = true -> tk_done t' = true) -> g' = {| g_todo := g_todo g; g_tasks := set_nth i t' (g_tasks g); g_report := c |} ->
    forall x, In x (g_tasks g') -> tk_done x = true \/ In (Await (tk_epoch x)) (g_todo g')).
  { intros t t' i c N Ee Ed -> x I. cbn [g_tasks g_todo] in *. apply In_nth_error in I as (j & I). rewrite (set_at t' t _ _ _ N) in I. destruct (j =? i)%nat; [|apply H; eapply nth_error_In; exact I]. injection I as <-. rewrite Ee. destruct (H t (nth_error_In _ _ N)) as [Q|Q]; auto. }
  destruct S as [e b r E L|e r E Fe|r E|r E|j t u ps N C|j t u p q f N C L|j t u k a q f p N C J|j t N C0 C1|j t N C1 C2|j t N C1 C2 C3 D]; try (eapply (K t); [exact N| | |reflexivity]; [reflexivity|cbn; auto]); clear K; rewrite E in *; cbn [g_tasks g_todo].
  - intros t I. apply in_app_iff in I as [I|[<-|[]]]; [|right; apply (Ss pre r e b); exact Ep]. destruct (H t I) as [Q|[Q|Q]]; [auto|discriminate|auto].
  - intros t I. destruct (H t I) as [Q|[Q|Q]]; [auto|injection Q as Q; left; apply Fe; auto|auto].
  - exfalso. apply Nc, in_or_app. right. left. reflexivity.
  - intros t I. destruct (H t I) as [Q|[Q|Q]]; [auto|discriminate|auto].
Qed.
Lemma rest_stuck (g : gossip T P) o : g_todo g = [] -> (forall t, In t (g_tasks g) -> tk_done t = true /\ shaped t) -> step g o = None.
Proof.
  intros E F. destruct (step g o) as [[g' ev]|] eqn:S; [|reflexivity]. exfalso. apply step_moved in S.
  destruct S as [e b r E' L|e r E' Fe|r E'|r E'|j t u ps N C|j t u p q f N C L|j t u k a q f p N C J|j t N C0 C1|j t N C1 C2|j t N C1 C2 C3 D]; try congruence; apply nth_error_In in N; apply F in N as [D' Sh]; destruct (sh_done t Sh D') as (X & Y & Z); try congruence;
    assert (H : tk_content t 0%nat = Going [] []) by (apply (sh_number t Sh); congruence); assert (W : (u <= 3)%nat) by (apply (shaped_le t u Sh); congruence); assert (W' : (u = 0 \/ u = 1 \/ u = 2 \/ u = 3)%nat) by lia; destruct W' as [-> |[-> |[-> | ->]]]; try congruence.
  all: assert (f = []) by congruence; subst f; destruct k; discriminate.
Qed.
Lemma run_reported todo ops g tr : sound_script todo -> run todo ops = Some (g, tr) -> forall c, In (Reported c) tr -> g_todo g = [] /\ (forall t, In t (g_tasks g) -> tk_done t = true) /\ c = counts tr /\ ~ In Crashed tr /\ exists tr0, tr = tr0 ++ [Reported c].
Proof.
  intros Ss. revert ops g tr. apply (run_ind (fun _ g tr => forall c, In (Reported c) tr -> g_todo g = [] /\ (forall t, In t (g_tasks g) -> tk_done t = true) /\ c = counts tr /\ ~ In Crashed tr /\ exists tr0, tr = tr0 ++ [Reported c])); [intros c []|].
  intros ops g tr o g' ev R H S c I. pose proof (run_shaped _ _ _ _ R) as Sh. apply in_app_iff in I as [I|I].
  { exfalso. destruct (H c I) as (H1 & H2 & _). rewrite rest_stuck in S; [discriminate|exact H1|]. intros t It. split; [apply H2; exact It|apply Sh; exact It]. }
  pose proof (run_counts _ _ _ _ R) as (_ & _ & Rc). destruct (run_script _ _ _ _ R) as (rs & _ & Sc & Sd). pose proof (run_awaited _ _ _ _ Ss R) as Aw. apply step_moved in S.
  destruct S as [e b r E L|e r E Fe|r E|r E|j t u ps N C|j t u p q f N C L|j t u k a q f p N C J|j t N C0 C1|j t N C1 C2|j t N C1 C2 C3 D]; try (destruct I as [I|[]]; discriminate I); try (destruct I; fail). destruct I as [I|[]]. injection I as <-.
  assert (Nc : ~ In Crashed tr) by (intros Ic; rewrite (Sd Ic) in E; discriminate). destruct (Sc Nc) as (_ & pre & Ep). rewrite E in Ep. assert (r = []) by exact (proj2 Ss _ _ Ep). subst r. cbn [g_todo g_tasks].
  split; [reflexivity|]. split; [intros t It; destruct (Aw Nc t It) as [Q|Q]; [exact Q|]; rewrite E in Q; destruct Q as [Q|[]]; discriminate|]. split; [rewrite counts_same by reflexivity; exact Rc|]. split; [|eauto].
  intros Ic. apply in_app_iff in Ic as [Ic|[Ic|[]]]; [exact (Nc Ic)|discriminate].
Qed.

(** *** Progress and the number of steps *)
Lemma in_flight_pos (g : gossip T P) : (forall t, In t (g_tasks g) -> shaped t) -> (0 < in_flight g)%nat -> exists i t w q p f, nth_error (g_tasks g) i = Some t /\ tk_content t w = Going q (p :: f).
Proof.
  intros Sh H. apply sum_pos in H as (i & t & N & H). exists i, t. unfold task_flying in H.
  assert (Q : exists w, (0 < flying (tk_content t w))%nat) by (destruct (flying (tk_content t 0%nat)) eqn:E0; [destruct (flying (tk_content t 1%nat)) eqn:E1; [destruct (flying (tk_content t 2%nat)) eqn:E2; [exists 3%nat; lia|exists 2%nat; lia]|exists 1%nat; lia]|exists 0%nat; lia]).
  destruct Q as (w & Q). exists w. destruct (tk_content t w) as [| |q [|p f]]; cbn in Q; try lia. eauto.
Qed.
Lemma can_step (g : gossip T P) : (0 < limit)%nat -> (forall t, In t (g_tasks g) -> shaped t) -> (g_todo g = [] /\ forall t, In t (g_tasks g) -> tk_done t = true) \/ exists o g' ev, step g o = Some (g', ev).
Proof.
  intros L Sh. destruct (Nat.eq_dec (in_flight g) 0) as [Z|Z].
  2: { right. destruct (in_flight_pos g Sh) as (i & t & w & q & p & f & N & C); [lia|]. exists (Answer i w 0%nat None). do 2 eexists. apply step_moved. eapply m_answer; [exact N|exact C|reflexivity]. }
  destruct (Nat.eq_dec (active g) 0) as [A|A].
  - assert (D : forall t, In t (g_tasks g) -> tk_done t = true) by (intros t I; rewrite active_sum in A; apply In_nth_error in I as (i & I); pose proof (sum_nth live t _ _ I) as Q; unfold live in Q at 1; destruct (tk_done t); [reflexivity|lia]).
    destruct (g_todo g) as [|[e b|e| |] r] eqn:E; [left; auto| | | |]; right; exists Main; do 2 eexists; apply step_moved.
    + apply m_spawn with (1 := E). lia.
    + apply m_await with (1 := E). auto.
    + apply m_crash with (1 := E).
    + apply m_report with (1 := E).
  - right. rewrite active_sum in A. destruct (sum_pos live (g_tasks g)) as (i & t & N & D); [lia|]. unfold live in D. destruct (tk_done t) eqn:Dn; [lia|]. clear D. destruct (Sh t (nth_error_In _ _ N)) as [S1 S2 S3 S4 S5 S6].
    assert (F0 : forall w q f, tk_content t w = Going q f -> f = []).
    { intros w q f C. assert (W : (w <= 3)%nat) by (apply (shaped_le t w (Sh t (nth_error_In _ _ N))); congruence). pose proof (sum_nth task_flying t _ _ N) as Q. unfold in_flight in Z. rewrite Z in Q. unfold task_flying in Q. assert (W' : (w = 0 \/ w = 1 \/ w = 2 \/ w = 3)%nat) by lia.
      assert (Q' : flying (tk_content t w) = 0%nat) by (destruct W' as [-> |[-> |[-> | ->]]]; lia). rewrite C in Q'. cbn in Q'. destruct f; [reflexivity|discriminate]. }
    assert (G : forall w, tk_content t w <> Idle -> tk_content t w = Going [] [] \/ exists o g' ev, step g o = Some (g', ev)).
    { intros w Hw. destruct (tk_content t w) as [| |q f] eqn:C; [contradiction| |].
      - right. exists (Begin i w []). do 2 eexists. apply step_moved. apply m_begin; eassumption.
      - pose proof (F0 _ _ _ C). subst f. destruct q as [|p q]; [auto|]. right. exists (Send i w). do 2 eexists. apply step_moved. eapply m_send; [exact N|exact C|lia]. }
    destruct (G 0%nat S1) as [H0|H0]; [|exact H0]. destruct (is_idle (tk_content t 1%nat)) eqn:I1.
    { apply idle_eq in I1. exists (Next i). do 2 eexists. apply step_moved. apply m_next; eassumption. }
    assert (N1 : tk_content t 1%nat <> Idle) by (intros Q; rewrite Q in I1; discriminate). destruct (is_idle (tk_content t 2%nat)) eqn:I2.
    { apply idle_eq in I2. exists (Wake i). do 2 eexists. apply step_moved. apply m_wake; eassumption. }
    assert (N2 : tk_content t 2%nat <> Idle) by (intros Q; rewrite Q in I2; discriminate). destruct (G 1%nat N1) as [H1|H1]; [|exact H1]. destruct (G 2%nat N2) as [H2|H2]; [|exact H2]. destruct (G 3%nat (proj2 S4 N2)) as [H3|H3]; [|exact H3].
    exists (Done i). do 2 eexists. apply step_moved. apply m_done; eassumption.
Qed.
Definition cost (c : @content P) : nat := match c with Idle | Waiting => 1 | Going q f => 2 * length q + length f end.
Definition task_cost (t : task T P) : nat := cost (tk_content t 0%nat) + cost (tk_content t 1%nat) + cost (tk_content t 2%nat) + cost (tk_content t 3%nat) + (if is_idle (tk_content t 1%nat) then 1 else 0) + (if is_idle (tk_content t 2%nat) then 1 else 0) + live t.
Definition todo_cost (a : action T) : nat := match a with Spawn _ _ => 8 | _ => 1 end.
Definition total (g : gossip T P) : nat := list_sum (map todo_cost (g_todo g)) + list_sum (map task_cost (g_tasks g)).
Lemma selections_app a b : selections (a ++ b) = (@selections P a + selections b)%nat. Proof. apply sum_app. Qed.
Lemma selections_one (e : event P) : selections [e] = match e with Began _ _ ps => length ps | _ => 0%nat end. Proof. destruct e; cbn; lia. Qed.
Lemma cost_set (t : task T P) w c : (w <= 3)%nat -> tk_content t w <> Idle -> c <> Idle -> (task_cost (set_content t w c) + cost (tk_content t w) = task_cost t + cost c)%nat.
Proof.
  intros H H1 H2. unfold task_cost, live. cbn [set_content tk_content tk_done]. assert (W : (w = 0 \/ w = 1 \/ w = 2 \/ w = 3)%nat) by lia.
  assert (I1 : is_idle (tk_content t w) = false) by (destruct (tk_content t w); [contradiction|reflexivity|reflexivity]). assert (I2 : is_idle c = false) by (destruct c; [contradiction|reflexivity|reflexivity]).
  destruct W as [-> |[-> |[-> | ->]]]; cbn [Nat.eqb]; rewrite ?I1, ?I2; lia.
Qed.
Lemma run_length todo ops g tr : run todo ops = Some (g, tr) -> (length ops + total g <= list_sum (map todo_cost todo) + 2 * selections tr)%nat.
Proof.
  revert ops g tr. apply (run_ind (fun ops g tr => (length ops + total g <= list_sum (map todo_cost todo) + 2 * selections tr)%nat)); [unfold total; cbn [start g_todo g_tasks map list_sum fold_right length]; unfold list_sum; cbn; lia|].
  intros ops g tr o g' ev R H S. pose proof (run_shaped _ _ _ _ R) as Sh. apply step_moved in S. rewrite app_length, selections_app. cbn [length]. unfold total in *.
  destruct S as [e b r E L|e r E Fe|r E|r E|j t u ps N C|j t u p q f N C L|j t u k a q f p N C J|j t N C0 C1|j t N C1 C2|j t N C1 C2 C3 D]; rewrite ?selections_one; cbn [g_todo g_tasks set_task]; try (rewrite E in H; cbn [map] in H; match type of H with context [list_sum (?x :: ?y)] => change (list_sum (x :: y)) with (x + list_sum y)%nat in H end; cbn [todo_cost] in H).
  - rewrite sum_app. cbn. cbn in H. lia.
  - cbn. lia.
  - cbn. lia.
  - cbn. lia.
  - pose proof (set_sum task_cost (set_content t u (Going ps [])) t _ _ N) as Q. pose proof (cost_set t u (Going ps []) (shaped_le t u (Sh t (nth_error_In _ _ N)) ltac:(congruence)) ltac:(congruence) ltac:(discriminate)) as Q2. rewrite C in Q2. cbn [cost length] in Q2. lia.
  - pose proof (set_sum task_cost (set_content t u (Going q (f ++ [p]))) t _ _ N) as Q. pose proof (cost_set t u (Going q (f ++ [p])) (shaped_le t u (Sh t (nth_error_In _ _ N)) ltac:(congruence)) ltac:(congruence) ltac:(discriminate)) as Q2. rewrite C in Q2. cbn [cost length] in Q2. rewrite app_length in Q2. cbn [length] in Q2. lia.
  - pose proof (set_sum task_cost (set_content t u (Going q (remove_nth k f))) t _ _ N) as Q. pose proof (cost_set t u (Going q (remove_nth k f)) (shaped_le t u (Sh t (nth_error_In _ _ N)) ltac:(congruence)) ltac:(congruence) ltac:(discriminate)) as Q2. rewrite C in Q2. cbn [cost length] in Q2. rewrite (remove_len p f k J) in Q2. lia.
  - pose proof (set_sum task_cost (set_content t 1%nat Waiting) t _ _ N) as Q. unfold task_cost at 2 4 in Q. unfold live in Q. cbn [set_content tk_content Nat.eqb cost is_idle tk_done] in Q. rewrite C1 in Q. cbn [cost is_idle] in Q. cbn. lia.
  - pose proof (set_sum task_cost (set_content (set_content t 2%nat Waiting) 3%nat Waiting) t _ _ N) as Q. unfold task_cost at 2 4 in Q. unfold live in Q. cbn [set_content tk_content Nat.eqb cost is_idle tk_done] in Q. rewrite C2 in Q. cbn [cost is_idle] in Q.
    assert (C3 : tk_content t 3%nat = Idle) by (destruct (tk_content t 3%nat) eqn:X; [reflexivity| |]; exfalso; apply (proj1 (sh_receipts t (Sh t (nth_error_In _ _ N)))); congruence). rewrite C3 in Q. cbn [cost] in Q. cbn. lia.
  - pose proof (set_sum task_cost {| tk_epoch := tk_epoch t; tk_block := tk_block t; tk_content := tk_content t; tk_done := true |} t _ _ N) as Q. unfold task_cost at 2 4 in Q. unfold live in Q. cbn [tk_content tk_done] in Q. rewrite D in Q. cbn. lia.
Qed.
(** *** What the main loop has left behind *)
Lemma run_passed todo ops g tr : run todo ops = Some (g, tr) ->
  (In Crashed tr -> In Crash todo) /\ (~ In Crashed tr -> exists pre, todo = pre ++ g_todo g /\ ~ In Crash pre /\ (In Report pre -> exists c, In (Reported c) tr)).
Proof.
  revert ops g tr. apply (run_ind (fun _ g tr => (In Crashed tr -> In Crash todo) /\ (~ In Crashed tr -> exists pre, todo = pre ++ g_todo g /\ ~ In Crash pre /\ (In Report pre -> exists c, In (Reported c) tr)))).
  { split; [intros []|]. intros _. exists []. split; [reflexivity|]. split; intros []. }
  intros ops g tr o g' ev R [H0 H] S. apply step_moved in S.
  assert (Sub : ~ In Crashed (tr ++ ev) -> ~ In Crashed tr) by (intros Nc I; apply Nc, in_or_app; left; exact I).
  assert (K : ~ In Crashed ev -> g_todo g' = g_todo g -> (In Crashed (tr ++ ev) -> In Crash todo) /\ (~ In Crashed (tr ++ ev) -> exists pre, todo = pre ++ g_todo g' /\ ~ In Crash pre /\ (In Report pre -> exists c, In (Reported c) (tr ++ ev)))).
  { intros Ne Et. split; [intros I; apply in_app_iff in I as [I|I]; [auto|contradiction]|]. intros Nc. destruct (H (Sub Nc)) as (pre & E & Np & Rp). exists pre. rewrite Et. split; [exact E|]. split; [exact Np|]. intros I. destruct (Rp I) as (c & Ic). exists c. apply in_or_app. left. exact Ic. }
  assert (M : forall a r, g_todo g = a :: r -> g_todo g' = r -> a <> Crash -> ~ In Crashed ev -> (a = Report -> exists c, In (Reported c) ev) ->
    (In Crashed (tr ++ ev) -> In Crash todo) /\ (~ In Crashed (tr ++ ev) -> exists pre, todo = pre ++ g_todo g' /\ ~ In Crash pre /\ (In Report pre -> exists c, In (Reported c) (tr ++ ev)))).
  { intros a r E E' Na Ne Ra. split; [intros I; apply in_app_iff in I as [I|I]; [auto|contradiction]|]. intros Nc. destruct (H (Sub Nc)) as (pre & Ep & Np & Rp). exists (pre ++ [a]). rewrite E', <- app_assoc. split; [rewrite Ep, E; reflexivity|].
    split; [intros I; apply in_app_iff in I as [I|[I|[]]]; [contradiction|congruence]|]. intros I. apply in_app_iff in I as [I|[I|[]]]; [destruct (Rp I) as (c & Ic)|destruct (Ra I) as (c & Ic)]; exists c; apply in_or_app; auto. }
  destruct S as [e b r E L|e r E Fe|r E|r E|j t u ps N C|j t u p q f N C L|j t u k a q f p N C J|j t N C0 C1|j t N C1 C2|j t N C1 C2 C3 D]; try (apply K; [cbn; intuition discriminate|reflexivity]).
  - apply (M _ _ E eq_refl); [discriminate|intros []|discriminate].
  - apply (M _ _ E eq_refl); [discriminate|intros []|discriminate].
  - split; [|intros Nc; exfalso; apply Nc, in_or_app; right; left; reflexivity]. intros _.
    assert (D : In Crashed tr \/ ~ In Crashed tr) by (destruct (existsb (fun e => match e with Crashed => true | _ => false end) tr) eqn:X; [left; apply existsb_exists in X as ([] & I & Y); try discriminate; exact I|right; intros I; assert (existsb (fun e => match e with @Crashed _ => true | _ => false end) tr = true) by (apply existsb_exists; exists Crashed; auto); congruence]).
    destruct D as [D|D]; [auto|]. destruct (H D) as (pre & Ep & _). rewrite Ep, E. apply in_or_app. right. left. reflexivity.
  - apply (M _ _ E eq_refl); [discriminate|cbn; intuition discriminate|]. intros _. eexists. left. reflexivity.
Qed.
Lemma run_nothing todo ops g tr : limit = 0%nat -> run todo ops = Some (g, tr) -> g_tasks g = [].
Proof.
  intros Z. revert ops g tr. apply (run_ind (fun _ g _ => g_tasks g = [])); [reflexivity|]. intros ops g tr o g' ev R H S. apply step_moved in S.
  destruct S as [e b r E L|e r E Fe|r E|r E|j t u ps N C|j t u p q f N C L|j t u k a q f p N C J|j t N C0 C1|j t N C1 C2|j t N C1 C2 C3 D]; cbn [g_tasks]; try exact H; try (rewrite H in N; destruct j; discriminate). lia.
Qed.
Lemma run_completed todo ops g tr : run todo ops = Some (g, tr) -> forall i w, content_at g i w = Going [] [] -> completed i w tr.
Proof.
  intros R i w C. pose proof (run_told _ _ _ _ R i w) as Td. rewrite C in Td. destruct Td as (ps & T1 & T2 & T3). rewrite app_nil_r in T2, T3. exists ps. rewrite <- T2. split; [rewrite T2; exact T1|]. split; [reflexivity|exact T3].
Qed.
Lemma run_first todo ops g tr : run todo ops = Some (g, tr) -> forall a e b i w, tr = a ++ e :: b -> about e = Some (i, w) -> w <> 0%nat -> completed i 0 a.
Proof.
  intros R a e b i w E A W. destruct (run_event _ _ _ _ R a e b E) as (ops1 & g1 & o & g2 & R1 & S). pose proof (run_shaped _ _ _ _ R1) as Sh. apply (run_completed _ _ _ _ R1). apply step_moved in S.
  assert (K : forall t, nth_error (g_tasks g1) i = Some t -> tk_content t w <> Idle -> content_at g1 i 0 = Going [] []).
  { intros t N C. rewrite (at_task _ _ _ _ N). specialize (Sh t (nth_error_In _ _ N)). assert (Lw : (w <= 3)%nat) by (apply (shaped_le t w Sh C)). apply (sh_number t Sh).
    assert (D : (w = 1 \/ w = 2 \/ w = 3)%nat) by lia. destruct D as [-> |[-> | ->]]; [exact C|exact (sh_body t Sh C)|apply (sh_body t Sh), (sh_receipts t Sh), C]. }
  inversion S; subst; cbn in A; try discriminate; injection A as -> ->; eapply K; eauto; congruence.
Qed.
Lemma shaped_done t : shaped t -> tk_done t = true -> forall w, (w <= 3)%nat -> tk_content t w = Going [] [].
Proof.
  intros Sh D w W. destruct (sh_done t Sh D) as (X & Y & Z). assert (W' : (w = 0 \/ w = 1 \/ w = 2 \/ w = 3)%nat) by lia. destruct W' as [-> |[-> |[-> | ->]]]; auto. apply (sh_number t Sh). rewrite X. discriminate.
Qed.
Lemma count_le {A} (f : A -> bool) : forall (l : list A) (is : list nat), NoDup is -> (forall i, In i is -> exists x, nth_error l i = Some x /\ f x = true) -> (length is <= length (filter f l))%nat.
Proof.
  intros l is Nd H. rewrite <- (map_length (fun i => i) is).
  assert (G : forall l k is, NoDup is -> (forall i, In i is -> exists j x, i = (k + j)%nat /\ nth_error l j = Some x /\ f x = true) -> (length is <= length (filter f l))%nat).
  { clear. induction l as [|y l IH]; intros k is Nd H.
    - destruct is as [|i is]; [cbn; lia|]. destruct (H i (or_introl eq_refl)) as (j & x & _ & N & _). destruct j; discriminate.
    - destruct (in_dec Nat.eq_dec k is) as [I|I].
      + apply in_split in I as (a & b & ->). pose proof (NoDup_remove_1 _ _ _ Nd) as Nd'. pose proof (NoDup_remove_2 _ _ _ Nd) as Nk.
        assert (Fy : f y = true). { destruct (H k) as (j & x & E & N & F); [apply in_or_app; right; left; reflexivity|]. assert (j = 0%nat) by lia. subst j. injection N as ->. exact F. }
        cbn [filter]. rewrite Fy. rewrite app_length. cbn [length]. specialize (IH (S k) (a ++ b) Nd'). rewrite app_length in IH. assert (length a + length b <= length (filter f l))%nat; [|lia]. apply IH.
        intros i Hi. destruct (H i) as (j & x & E & N & F); [apply in_app_iff in Hi; apply in_or_app; cbn; tauto|]. destruct j as [|j]; [exfalso; apply Nk; replace k with i by lia; exact Hi|]. exists j, x. split; [lia|]. split; assumption.
      + assert (length is <= length (filter f l))%nat; [|cbn [filter]; destruct (f y); cbn [length]; lia]. apply (IH (S k)); [exact Nd|]. intros i Hi. destruct (H i Hi) as (j & x & E & N & F). destruct j as [|j]; [exfalso; apply I; replace k with i by lia; exact Hi|]. exists j, x. split; [lia|]. split; assumption. }
  rewrite map_id. apply (G l 0%nat is Nd). intros i Hi. destruct (H i Hi) as (x & N & F). exists i, x. auto.
Qed.
End Tasks.
