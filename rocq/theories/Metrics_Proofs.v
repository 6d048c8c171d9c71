(** Lemmas for Metrics_Props. *)
From Coq Require Import ZArith.
From Verif Require Import Base Metrics_Model Metrics_Spec.

Lemma count_app {A} (p : A -> bool) l l' : count p (l ++ l') = count p l + count p l'.
Proof. unfold count. rewrite filter_app, app_length. lia. Qed.
Lemma count_one {A} (p : A -> bool) x : count p [x] = if p x then 1 else 0.
Proof. unfold count. cbn. destruct (p x); reflexivity. Qed.
Lemma count_nil {A} (p : A -> bool) : count p [] = 0.
Proof. reflexivity. Qed.

Lemma without_fst id l x : In x (without id l) -> fst x <> id /\ In x l.
Proof. unfold without. rewrite filter_In. intros [H E]. split; [|exact H]. intros <-. rewrite N.eqb_refl in E. discriminate. Qed.
Lemma without_none id l : ~ In id (map fst l) -> without id l = l.
Proof.
  induction l as [|[i p] l IH]; cbn; intros H; [reflexivity|].
  destruct (i =? id) eqn:E; [apply N.eqb_eq in E; subst; tauto|]. cbn. f_equal. apply IH. tauto.
Qed.
Lemma task_found s id p : task s id = Some p -> In (id, p) (tasks s).
Proof.
  unfold task. destruct (find _ (tasks s)) as [[i q]|] eqn:E; [|discriminate]. intros [= <-].
  apply find_some in E as [H E]. cbn in E. apply N.eqb_eq in E. subst i. exact H.
Qed.
Lemma task_none s id : task s id = None -> ~ In id (map fst (tasks s)).
Proof.
  unfold task. destruct (find _ (tasks s)) as [x|] eqn:E; [discriminate|]. intros _ H.
  apply in_map_iff in H as [[i q] [H1 H2]]. cbn in H1. subst i.
  pose proof (List.find_none _ _ E _ H2) as F. cbn in F. rewrite N.eqb_refl in F. discriminate.
Qed.
Lemma count_without (p : N * phase -> bool) id ph l :
  NoDup (map fst l) -> In (id, ph) l -> count p l = count p (without id l) + (if p (id, ph) then 1 else 0).
Proof.
  induction l as [|[i q] l IH]; intros D H; [destruct H|]. cbn in D. inversion D as [|? ? D1 D2]; subst.
  change ((i, q) :: l) with ([(i, q)] ++ l). rewrite count_app, count_one.
  destruct H as [H|H].
  - injection H as -> ->. replace (without id ([(id, ph)] ++ l)) with (without id l) by (cbn; rewrite N.eqb_refl; reflexivity).
    rewrite without_none by exact D1. lia.
  - assert (N1 : i <> id) by (intros ->; apply D1; apply (in_map fst) in H; exact H).
    replace (without id ([(i, q)] ++ l)) with ([(i, q)] ++ without id l) by (cbn; apply N.eqb_neq in N1; rewrite N1; reflexivity).
    rewrite count_app, count_one, (IH D2 H). lia.
Qed.
Lemma without_nodup id l : NoDup (map fst l) -> NoDup (map fst (without id l)).
Proof.
  induction l as [|[i q] l IH]; cbn; intros D; [constructor|]. inversion D as [|? ? D1 D2]; subst.
  destruct (i =? id); cbn; [exact (IH D2)|]. constructor; [|exact (IH D2)].
  intros H. apply D1. apply in_map_iff in H as [x [<- H]]. apply in_map. exact (proj2 (without_fst _ _ _ H)).
Qed.
Lemma nodup_snoc {A} (l : list A) x : NoDup l -> ~ In x l -> NoDup (l ++ [x]).
Proof.
  induction l as [|y l IH]; cbn; intros D H; [repeat constructor; auto|]. inversion D as [|? ? D1 D2]; subst.
  constructor; [|apply IH; tauto]. rewrite in_app_iff. cbn. intros [K|[K|[]]]; [tauto|subst; tauto].
Qed.
Lemma nodup_init {A} (l : list A) x : NoDup (l ++ [x]) -> NoDup l /\ ~ In x l.
Proof.
  induction l as [|y l IH]; cbn; intros D; [split; [constructor|tauto]|]. inversion D as [|? ? D1 D2]; subst.
  destruct (IH D2) as [I1 I2]. rewrite in_app_iff in D1. cbn in D1. split; [constructor; tauto|].
  intros [->|K]; tauto.
Qed.

Lemma order_later {A} (l l' : list A) x : in_order l l' -> in_order l (l' ++ [x]).
Proof. induction 1; cbn; [constructor|now constructor|now constructor]. Qed.
Lemma order_snoc {A} (l l' : list A) x : in_order l l' -> in_order (l ++ [x]) (l' ++ [x]).
Proof.
  induction 1 as [l'|y l l' _ IH|y l l' _ IH]; cbn; [|now constructor|now constructor].
  induction l' as [|z l' IH]; cbn; [repeat constructor|now apply order_skip].
Qed.

Lemma transfer_run_snoc s l e :
  transfer_run s (l ++ [e]) =
  let (s', log) := transfer_run s l in let (s'', a) := transfer_step s' e in (s'', log ++ [(e, a)]).
Proof.
  revert s. induction l as [|x l IH]; intros s; cbn.
  - destruct (transfer_step s e) as [s' a]. reflexivity.
  - destruct (transfer_step s x) as [s1 a1]. rewrite IH.
    destruct (transfer_run s1 l) as [s2 log]. destruct (transfer_step s2 e) as [s3 a3]. reflexivity.
Qed.

Record numbers (s : transfers) (log : list (event * option answer)) : Prop := {
  nb_nodup : NoDup (map fst (tasks s));
  nb_in : streams (counts s) Inbound = Z.of_N (count waits_in (tasks s));
  nb_out : streams (counts s) Outbound = Z.of_N (count waits_out (tasks s));
  nb_data : outcomes (counts s) Inbound Success = count told_data log;
  nb_no_stream : outcomes (counts s) Inbound FailedConnection = count told_no_stream log;
  nb_no_data : outcomes (counts s) Inbound FailedDataTx = count told_no_data log;
  nb_no_shut : outcomes (counts s) Inbound FailedShutdown = 0;
  nb_sent : outcomes (counts s) Outbound Success = count told_sent log;
  nb_unconnected : outcomes (counts s) Outbound FailedConnection = count told_unconnected log;
  nb_unwritten : outcomes (counts s) Outbound FailedDataTx = count told_unwritten log;
  nb_unclosed : outcomes (counts s) Outbound FailedShutdown = count told_unclosed log }.

Ltac told := rewrite ?count_app, ?count_one; cbn [told_data told_no_stream told_no_data told_sent told_unconnected told_unwritten told_unclosed]; rewrite ?N.add_0_r.

Lemma numbers_nothing s log e : numbers s log -> numbers s (log ++ [(e, None)]).
Proof.
  intros [? ? ? ? ? ? ? ? ? ? ?].
  constructor; try assumption; told; destruct e; rewrite ?N.add_0_r; assumption.
Qed.
Lemma numbers_go_on s log e id p q : numbers s log -> task s id = Some p ->
  waits_in (id, p) = waits_in (id, q) -> waits_out (id, p) = waits_out (id, q) ->
  numbers (fst (go_on s id q)) (log ++ [(e, None)]).
Proof.
  intros H T I O. apply numbers_nothing. destruct H as [D Hi Ho ? ? ? ? ? ? ? ?]. pose proof (task_found _ _ _ T) as F.
  unfold go_on. cbn [fst]. constructor; cbn [counts tasks]; try assumption.
  - rewrite map_app. apply nodup_snoc; [apply without_nodup; exact D|]. intros K. apply in_map_iff in K as [x [K1 K2]].
    apply without_fst in K2. tauto.
  - rewrite Hi, (count_without _ _ _ _ D F), count_app, count_one, I. reflexivity.
  - rewrite Ho, (count_without _ _ _ _ D F), count_app, count_one, O. reflexivity.
Qed.
Lemma numbers_begin s log id data : numbers s log -> task s id = None ->
  numbers (fst (transfer_step s (Begin id data))) (log ++ [(Begin id data, None)]).
Proof.
  intros H T. cbn [transfer_step]. rewrite T. cbn [fst]. apply numbers_nothing.
  destruct H as [D Hi Ho ? ? ? ? ? ? ? ?].
  constructor; cbn [counts tasks]; try assumption.
  - rewrite map_app. apply nodup_snoc; [exact D|]. apply task_none. exact T.
  - rewrite count_app, count_one. cbn. destruct data; cbn; rewrite Hi; lia.
  - rewrite count_app, count_one. cbn. destruct data; cbn; rewrite Ho; lia.
Qed.

Lemma over_tasks s id d r a p : NoDup (map fst (tasks s)) -> task s id = Some p ->
  count waits_in (tasks s) = count waits_in (tasks (fst (over s id d r a))) + (if waits_in (id, p) then 1 else 0) /\
  count waits_out (tasks s) = count waits_out (tasks (fst (over s id d r a))) + (if waits_out (id, p) then 1 else 0).
Proof. intros D T. pose proof (task_found _ _ _ T) as F. split; apply count_without; assumption. Qed.

Lemma numbers_step s log e : numbers s log ->
  numbers (fst (transfer_step s e)) (log ++ [(e, snd (transfer_step s e))]).
Proof.
  intros H.
  assert (Ends : forall id d r a p, task s id = Some p ->
    (match d with Inbound => waits_in (id, p) = true /\ waits_out (id, p) = false | Outbound => waits_in (id, p) = false /\ waits_out (id, p) = true end) ->
    (match d, r, a with
     | Inbound, Success, Received _ | Inbound, FailedConnection, NoStream | Inbound, FailedDataTx, NoData | Outbound, Success, Sent => True
     | Outbound, FailedConnection, NotSent => exists i b, e = Connected i b
     | Outbound, FailedDataTx, NotSent => exists i b, e = Wrote i b
     | Outbound, FailedShutdown, NotSent => exists i b, e = Closed i b
     | _, _, _ => False
     end) -> numbers (fst (over s id d r a)) (log ++ [(e, Some a)])).
  { intros id d r a p T W K. destruct H as [D Hi Ho H1 H2 H3 H4 H5 H6 H7 H8].
    destruct (over_tasks s id d r a p D T) as [Ci Co].
    constructor; [apply without_nodup; exact D|..].
    all: destruct d, r, a; try contradiction; destruct W as [W1 W2]; rewrite W1 in Ci; rewrite W2 in Co;
      try match type of K with ex _ => destruct K as [? [? ->]] end;
      unfold over in *; cbn [fst counts tasks] in *; unfold report_outcome, active_dec, active_add; cbn [streams outcomes dir_eqb res_eqb andb];
      try (rewrite ?Hi, ?Ho; lia); told; first [assumption | lia | destruct e; rewrite ?N.add_0_r; first [assumption | lia]]. }
  destruct e as [id data|id ok|id r|id r|id ok]; cbn [transfer_step].
  - destruct (task s id) eqn:T; [apply numbers_nothing; exact H|].
    pose proof (numbers_begin s log id data H T) as B. cbn [transfer_step] in B. rewrite T in B. exact B.
  - destruct (task s id) as [[| |b|b|]|] eqn:T; try (apply numbers_nothing; exact H); destruct ok.
    + eapply numbers_go_on; try eassumption; reflexivity.
    + apply (Ends _ _ _ _ ConnectingIn); [exact T|split; reflexivity|exact Logic.I].
    + eapply numbers_go_on; try eassumption; reflexivity.
    + apply (Ends _ _ _ _ (ConnectingOut b)); [exact T|split; reflexivity|eauto].
  - destruct (task s id) as [[| |b|b|]|] eqn:T; try (apply numbers_nothing; exact H); destruct r.
    + apply (Ends _ _ _ _ Reading); [exact T|split; reflexivity|exact Logic.I].
    + apply (Ends _ _ _ _ Reading); [exact T|split; reflexivity|exact Logic.I].
  - destruct (task s id) as [[| |b|b|]|] eqn:T; try (apply numbers_nothing; exact H); destruct r as [n|].
    + destruct (n =? blen b); cbn [negb].
      * eapply numbers_go_on; try eassumption; reflexivity.
      * apply (Ends _ _ _ _ (Writing b)); [exact T|split; reflexivity|eauto].
    + apply (Ends _ _ _ _ (Writing b)); [exact T|split; reflexivity|eauto].
  - destruct (task s id) as [[| |b|b|]|] eqn:T; try (apply numbers_nothing; exact H); destruct ok.
    + apply (Ends _ _ _ _ Closing); [exact T|split; reflexivity|exact Logic.I].
    + apply (Ends _ _ _ _ Closing); [exact T|split; reflexivity|eauto].
Qed.
Lemma numbers_run l s log : transfer_run no_transfers l = (s, log) -> numbers s log.
Proof.
  revert s log. induction l as [|e l IH] using rev_ind; intros s log R.
  - injection R as <- <-. constructor; try reflexivity. constructor.
  - rewrite transfer_run_snoc in R. destruct (transfer_run no_transfers l) as [s1 log1]. specialize (IH _ _ eq_refl).
    pose proof (numbers_step s1 log1 e IH) as K. destruct (transfer_step s1 e) as [s2 a]. injection R as <- <-. exact K.
Qed.

(** ** Begun, waiting and ended *)
Definition ended (m : utp) (d : direction) : N := outcomes m d Success + outcomes m d FailedConnection + outcomes m d FailedDataTx + outcomes m d FailedShutdown.
Definition begins (d : direction) (e : event) : bool := match d with Inbound => begins_in e | Outbound => begins_out e end.
Lemma over_sum s id d r a d' :
  (streams (counts (fst (over s id d r a))) d' + Z.of_N (ended (counts (fst (over s id d r a))) d') = streams (counts s) d' + Z.of_N (ended (counts s) d'))%Z.
Proof.
  unfold over, ended, report_outcome, active_dec, active_add. cbn [fst counts streams outcomes].
  destruct d, d', r; cbn [dir_eqb res_eqb andb]; lia.
Qed.
Lemma step_sum s e d : (forall id, In id (begun_ids [e]) -> task s id = None) ->
  (streams (counts (fst (transfer_step s e))) d + Z.of_N (ended (counts (fst (transfer_step s e))) d) =
   streams (counts s) d + Z.of_N (ended (counts s) d) + (if begins d e then 1 else 0))%Z.
Proof.
  intros F. destruct e as [id data|id ok|id r|id r|id ok]; cbn [transfer_step].
  - rewrite (F id (or_introl eq_refl)). unfold ended, active_inc, active_add. cbn [fst counts streams outcomes].
    destruct data, d; cbn [dir_eqb begins begins_in begins_out]; lia.
  - destruct (task s id) as [[| |b|b|]|]; try destruct ok; rewrite ?over_sum; cbn [fst go_on counts]; destruct d; cbn [begins begins_in begins_out]; lia.
  - destruct (task s id) as [[| |b|b|]|]; try destruct r; rewrite ?over_sum; cbn [fst go_on counts]; destruct d; cbn [begins begins_in begins_out]; lia.
  - destruct (task s id) as [[| |b|b|]|]; try destruct r as [n|]; try destruct (n =? _); cbn [negb]; rewrite ?over_sum; cbn [fst go_on counts]; destruct d; cbn [begins begins_in begins_out]; lia.
  - destruct (task s id) as [[| |b|b|]|]; try destruct ok; rewrite ?over_sum; cbn [fst go_on counts]; destruct d; cbn [begins begins_in begins_out]; lia.
Qed.
Lemma without_ids id l i : In i (map fst (without id l)) -> In i (map fst l).
Proof. intros H. apply in_map_iff in H as [x [<- H]]. apply in_map. exact (proj2 (without_fst _ _ _ H)). Qed.
Lemma step_ids s e i : In i (map fst (tasks (fst (transfer_step s e)))) -> In i (map fst (tasks s)) \/ In i (begun_ids [e]).
Proof.
  assert (G : forall id p, task s id <> None -> In i (map fst (tasks (fst (go_on s id p)))) -> In i (map fst (tasks s))).
  { intros id p T. unfold go_on. cbn [fst tasks]. rewrite map_app, in_app_iff. intros [H|[<-|[]]]; [exact (without_ids _ _ _ H)|].
    destruct (task s id) as [q|] eqn:E; [|tauto]. apply task_found in E. exact (in_map fst _ _ E). }
  assert (O : forall id d r a, In i (map fst (tasks (fst (over s id d r a)))) -> In i (map fst (tasks s))) by (intros id d r a; apply without_ids).
  destruct e as [id data|id ok|id r|id r|id ok]; cbn [transfer_step].
  - destruct (task s id); [auto|]. cbn [fst tasks]. rewrite map_app, in_app_iff. cbn. tauto.
  - destruct (task s id) as [[| |b|b|]|] eqn:T; try destruct ok; intros H; left; first [exact H | eapply O; exact H | eapply G; [|exact H]; congruence].
  - destruct (task s id) as [[| |b|b|]|] eqn:T; try destruct r; intros H; left; first [exact H | eapply O; exact H | eapply G; [|exact H]; congruence].
  - destruct (task s id) as [[| |b|b|]|] eqn:T; try destruct r as [n|]; try destruct (n =? _); cbn [negb]; intros H; left; first [exact H | eapply O; exact H | eapply G; [|exact H]; congruence].
  - destruct (task s id) as [[| |b|b|]|] eqn:T; try destruct ok; intros H; left; first [exact H | eapply O; exact H | eapply G; [|exact H]; congruence].
Qed.
Lemma run_ids l s log : transfer_run no_transfers l = (s, log) -> forall i, In i (map fst (tasks s)) -> In i (begun_ids l).
Proof.
  revert s log. induction l as [|e l IH] using rev_ind; intros s log R i H.
  - injection R as <- <-. destruct H.
  - rewrite transfer_run_snoc in R. destruct (transfer_run no_transfers l) as [s1 log1].
    pose proof (step_ids s1 e i) as K. destruct (transfer_step s1 e) as [s2 a]. injection R as <- <-. cbn [fst] in K.
    unfold begun_ids in *. rewrite flat_map_app, in_app_iff. destruct (K H) as [K'|K']; [left; exact (IH _ _ eq_refl _ K')|right; exact K'].
Qed.
Lemma run_sum l s log : NoDup (begun_ids l) -> transfer_run no_transfers l = (s, log) ->
  forall d, (streams (counts s) d + Z.of_N (ended (counts s) d) = Z.of_N (count (begins d) l))%Z.
Proof.
  revert s log. induction l as [|e l IH] using rev_ind; intros s log D R d.
  - injection R as <- <-. reflexivity.
  - rewrite transfer_run_snoc in R. destruct (transfer_run no_transfers l) as [s1 log1] eqn:R1.
    assert (D1 : NoDup (begun_ids l) /\ forall id, In id (begun_ids [e]) -> ~ In id (begun_ids l)).
    { unfold begun_ids in D. rewrite flat_map_app in D. fold (begun_ids l) in D. destruct e as [id data|? ?|? ?|? ?|? ?]; cbn in D; rewrite ?app_nil_r in D.
      - destruct (nodup_init _ _ D) as [D1 D2]. split; [exact D1|]. intros i [<-|[]]. exact D2.
      - split; [exact D|intros i []].
      - split; [exact D|intros i []].
      - split; [exact D|intros i []].
      - split; [exact D|intros i []]. }
    destruct D1 as [D1 D2]. specialize (IH _ _ D1 eq_refl d).
    assert (F : forall id, In id (begun_ids [e]) -> task s1 id = None).
    { intros id H. destruct (task s1 id) as [p|] eqn:T; [|reflexivity]. exfalso. apply (D2 id H). apply (run_ids _ _ _ R1).
      apply task_found in T. exact (in_map fst _ _ T). }
    pose proof (step_sum s1 e d F) as K. destruct (transfer_step s1 e) as [s2 a]. injection R as <- <-. cbn [fst] in K.
    rewrite K, IH, count_app, count_one. destruct (begins d e); lia.
Qed.

(** ** What happened before *)
Definition history (l : list event) (x : N * phase) : Prop :=
  match x with
  | (id, ConnectingIn) => in_order [Begin id None] l
  | (id, Reading) => in_order [Begin id None; Connected id true] l
  | (id, ConnectingOut b) => in_order [Begin id (Some b)] l
  | (id, Writing b) => in_order [Begin id (Some b); Connected id true] l
  | (id, Closing) => exists b, in_order [Begin id (Some b); Connected id true; Wrote id (Some (blen b))] l
  end.
Lemma history_later l e x : history l x -> history (l ++ [e]) x.
Proof. destruct x as [id [| |b|b|]]; cbn; try apply order_later. intros [b H]. exists b. apply order_later. exact H. Qed.
Lemma explained_later l e x : explained l x -> explained (l ++ [e]) x.
Proof.
  destruct x as [e' [[b| | | |]|]]; cbn; [..|tauto].
  - intros [id [E H]]. exists id. split; [exact E|apply order_later; exact H].
  - intros [id [E H]]. exists id. split; [exact E|apply order_later; exact H].
  - intros [id [E H]]. exists id. split; [exact E|apply order_later; exact H].
  - intros (id & b & E & H). exists id, b. split; [exact E|apply order_later; exact H].
  - intros (id & b & [[E H]|[(w & W & E & H)|[E H]]]); exists id, b.
    + left. split; [exact E|apply order_later; exact H].
    + right. left. exists w. split; [exact W|]. split; [exact E|apply order_later; exact H].
    + right. right. split; [exact E|apply order_later; exact H].
Qed.
Lemma step_history l s e : (forall x, In x (tasks s) -> history l x) ->
  (forall x, In x (tasks (fst (transfer_step s e))) -> history (l ++ [e]) x) /\ explained (l ++ [e]) (e, snd (transfer_step s e)).
Proof.
  intros H.
  assert (Same : (forall x, In x (tasks s) -> history (l ++ [e]) x) /\ explained (l ++ [e]) (e, None)).
  { split; [|exact Logic.I]. intros x K. apply history_later, H, K. }
  assert (Old : forall id x, In x (without id (tasks s)) -> history (l ++ [e]) x).
  { intros id x K. apply (proj1 Same). exact (proj2 (without_fst _ _ _ K)). }
  assert (Go : forall id p, history (l ++ [e]) (id, p) ->
    (forall x, In x (tasks (fst (go_on s id p))) -> history (l ++ [e]) x) /\ explained (l ++ [e]) (e, snd (go_on s id p))).
  { intros id p K. split; [|exact Logic.I]. intros x. unfold go_on. cbn [fst tasks]. rewrite in_app_iff. intros [I|[<-|[]]]; [exact (Old _ _ I)|exact K]. }
  assert (Ov : forall id d r a, explained (l ++ [e]) (e, Some a) ->
    (forall x, In x (tasks (fst (over s id d r a))) -> history (l ++ [e]) x) /\ explained (l ++ [e]) (e, snd (over s id d r a))).
  { intros id d r a K. split; [intros x; apply Old|exact K]. }
  destruct e as [id data|id ok|id r|id r|id ok]; cbn [transfer_step].
  - destruct (task s id); [exact Same|]. cbn [fst snd tasks]. split; [|exact Logic.I]. intros x. rewrite in_app_iff. intros [K|[<-|[]]]; [exact (proj1 Same _ K)|].
    assert (E : in_order [Begin id data] (l ++ [Begin id data])) by (apply (order_snoc [] l), order_end). destruct data; exact E.
  - destruct (task s id) as [[| |b|b|]|] eqn:T; try exact Same; apply task_found, H in T; cbn in T; destruct ok.
    + apply Go. exact (order_snoc [_] l _ T).
    + apply Ov. exists id. split; [reflexivity|exact (order_snoc [_] l _ T)].
    + apply Go. exact (order_snoc [_] l _ T).
    + apply Ov. exists id, b. left. split; [reflexivity|exact (order_snoc [_] l _ T)].
  - destruct (task s id) as [[| |b|b|]|] eqn:T; try exact Same; apply task_found, H in T; cbn in T; destruct r as [c|].
    + apply Ov. exists id. split; [reflexivity|exact (order_snoc [_; _] l _ T)].
    + apply Ov. exists id. split; [reflexivity|exact (order_snoc [_; _] l _ T)].
  - destruct (task s id) as [[| |b|b|]|] eqn:T; try exact Same; apply task_found, H in T; cbn in T; destruct r as [n|].
    + destruct (n =? blen b) eqn:E; cbn [negb].
      * apply N.eqb_eq in E. subst n. apply Go. exists b. exact (order_snoc [_; _] l _ T).
      * apply N.eqb_neq in E. apply Ov. exists id, b. right. left. exists (Some n). split; [congruence|].
        split; [reflexivity|exact (order_snoc [_; _] l _ T)].
    + apply Ov. exists id, b. right. left. exists None. split; [discriminate|]. split; [reflexivity|exact (order_snoc [_; _] l _ T)].
  - destruct (task s id) as [[| |b|b|]|] eqn:T; try exact Same; apply task_found, H in T; cbn in T; destruct T as [b T]; destruct ok.
    + apply Ov. exists id, b. split; [reflexivity|exact (order_snoc [_; _; _] l _ T)].
    + apply Ov. exists id, b. right. right. split; [reflexivity|exact (order_snoc [_; _; _] l _ T)].
Qed.
Lemma run_history l s log : transfer_run no_transfers l = (s, log) ->
  (forall x, In x (tasks s) -> history l x) /\ (forall x, In x log -> explained l x).
Proof.
  revert s log. induction l as [|e l IH] using rev_ind; intros s log R.
  - injection R as <- <-. split; intros x [].
  - rewrite transfer_run_snoc in R. destruct (transfer_run no_transfers l) as [s1 log1]. destruct (IH _ _ eq_refl) as [I1 I2].
    pose proof (step_history l s1 e I1) as [K1 K2]. destruct (transfer_step s1 e) as [s2 a]. injection R as <- <-. split; [exact K1|].
    intros x. rewrite in_app_iff. intros [K|[<-|[]]]; [apply explained_later, I2, K|exact K2].
Qed.
