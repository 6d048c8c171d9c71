(** C128: what a bridge reports of its offers, and what timers record. *)
From Coq Require Import String Ascii.
From Verif Require Import Base Header_Model Args_Model BridgeMetrics_Model BridgeMetrics_Spec.

(** ** Texts of clients and results *)
Lemma app_tail (a b c : bytes) : a ++ c = b ++ c -> a = b.
Proof. apply app_inv_tail. Qed.
Lemma text_inj c d : client_text c = client_text d -> c = d.
Proof.
  destruct c as [| | | | | |[n|]], d as [| | | | | |[m|]]; intros E; try reflexivity; try discriminate E.
  do 2 f_equal. change (lit "Unknown(" ++ n ++ lit ")" = lit "Unknown(" ++ m ++ lit ")") in E. apply app_inv_head in E. exact (app_tail _ _ _ E).
Qed.
Lemma trace_inj t u : trace_text t = trace_text u -> t = u.
Proof. destruct t as [c|], u as [d|]; [|destruct c; discriminate|destruct d; discriminate|reflexivity]. destruct c, d; intros E; try reflexivity; discriminate E. Qed.
(** Different types of clients, and different results, have different texts *)
Theorem C128_texts : (forall c d, client_text c = client_text d -> c = d) /\ (forall t u, trace_text t = trace_text u -> t = u).
Proof. split; [exact text_inj|exact trace_inj]. Qed.
(** The type of a client is that of its name in lower case; any other name is unknown, and is kept *)
Theorem C128_clients : forall lower name, (exists c, own_type (lower name) c /\ client_from lower name = c) \/
  ((forall c, ~ own_type (lower name) c) /\ client_from lower name = Unknown (Some (lower name))).
Proof.
  intros lower name. unfold client_from. set (v := lower name).
  destruct (beqb v (lit "fluffy")) eqn:E1; [apply beqb_spec in E1; left; rewrite E1; eexists; split; [constructor|reflexivity]|].
  destruct (beqb v (lit "trin")) eqn:E2; [apply beqb_spec in E2; left; rewrite E2; eexists; split; [constructor|reflexivity]|].
  destruct (beqb v (lit "trin-execution")) eqn:E3; [apply beqb_spec in E3; left; rewrite E3; eexists; split; [constructor|reflexivity]|].
  destruct (beqb v (lit "shisui")) eqn:E4; [apply beqb_spec in E4; left; rewrite E4; eexists; split; [constructor|reflexivity]|].
  destruct (beqb v (lit "ultralight")) eqn:E5; [apply beqb_spec in E5; left; rewrite E5; eexists; split; [constructor|reflexivity]|].
  destruct (beqb v (lit "samba")) eqn:E6; [apply beqb_spec in E6; left; rewrite E6; eexists; split; [constructor|reflexivity]|].
  right. split; [|reflexivity]. intros c O. inversion O as [X|X|X|X|X|X]; rewrite <- X in *; rewrite beqb_refl in *; discriminate.
Qed.
(** Not so: that the text of a type is a name of it.  "TrinExecution" is the name of an unknown client *)
Theorem C128_execution_refuted : forall lower, lower (client_text TrinExecution) = lit "trinexecution" ->
  client_from lower (client_text TrinExecution) = Unknown (Some (lit "trinexecution")).
Proof. intros lower E. unfold client_from. rewrite E. reflexivity. Qed.

(** ** Counters *)
Lemma labels_spec a b : labels_eqb a b = true <-> a = b.
Proof.
  revert b. induction a as [|x a IH]; intros [|y b]; cbn; try (split; [discriminate|discriminate]); [tauto|].
  rewrite andb_true_iff, beqb_spec, IH. split; [intros (-> & ->); reflexivity|intros [= -> ->]; auto].
Qed.
Lemma labels_refl a : labels_eqb a a = true.
Proof. now apply labels_spec. Qed.
Lemma inc_value c l k : value (inc c l) k = value c k + (if labels_eqb l k then 1 else 0).
Proof.
  unfold value. induction c as [|[x n] c IH]; cbn [inc find fst snd].
  - destruct (labels_eqb l k); reflexivity.
  - destruct (labels_eqb x l) eqn:E; cbn [find fst snd].
    + apply labels_spec in E. subst x. destruct (labels_eqb l k); cbn [snd]; [reflexivity|lia].
    + destruct (labels_eqb x k) eqn:X; cbn [snd]; [|exact IH]. apply labels_spec in X. subst x. destruct (labels_eqb l k) eqn:Y; [|lia]. apply labels_spec in Y. subst l. rewrite labels_refl in E. discriminate.
Qed.
Lemma inc_keys c l k : In k (map fst (inc c l)) <-> In k (map fst c) \/ k = l.
Proof.
  induction c as [|[x n] c IH]; cbn [inc map fst]; [cbn; intuition congruence|]. destruct (labels_eqb x l) eqn:E; cbn [map fst In].
  - apply labels_spec in E. subst x. intuition congruence.
  - rewrite IH. tauto.
Qed.
Lemma inc_nodup c l : NoDup (map fst c) -> NoDup (map fst (inc c l)).
Proof.
  induction c as [|[x n] c IH]; cbn [inc map fst]; intros D; [repeat constructor; intros []|]. inversion D; subst. destruct (labels_eqb x l) eqn:E; cbn [map fst]; [exact D|].
  constructor; [|auto]. rewrite inc_keys. intros [I| ->]; [contradiction|]. rewrite labels_refl in E. discriminate.
Qed.
Lemma inc_new c l : ~ In l (map fst c) -> inc c l = c ++ [(l, 1)].
Proof.
  induction c as [|[x n] c IH]; cbn [inc map fst]; intros N1; [reflexivity|]. destruct (labels_eqb x l) eqn:E; [apply labels_spec in E; elim N1; left; exact E|]. cbn [app]. rewrite IH; [reflexivity|]. intros I. apply N1. now right.
Qed.
(** The counter for contents of a kind, a type of clients and a result is the number of the offers that ended so *)
Lemma run_counts bridge k c t : forall es s n0, n0 = value (offers s) [bridge; k; client_text c; trace_text t] ->
  exists n, number (ended_as k c t) (snd (run bridge s es)) n /\ value (offers (fst (run bridge s es))) [bridge; k; client_text c; trace_text t] = n0 + n.
Proof.
  set (L := [bridge; k; client_text c; trace_text t]). induction es as [|e es IH]; intros s n0 ->; cbn [run]; [exists 0; split; [constructor|cbn; lia]|].
  destruct (step bridge s e) as [s1 o] eqn:St. specialize (IH s1 _ eq_refl). destruct (run bridge s1 es) as [s2 l]. cbn [fst snd] in *. destruct IH as (n & Nu & V).
  destruct e as [id kk p now|id tt now|id now]; cbn [step] in St; destruct (offer_of s id) as [o'|]; injection St as <- <-; cbn [offers] in V;
    try (exists n; split; [exact Nu|exact V]).
  - destruct (kind o') as [k'|] eqn:K.
    + unfold report_offer in V. rewrite inc_value in V. destruct (labels_eqb [bridge; k'; client_text (peer o'); trace_text tt] L) eqn:E.
      * apply labels_spec in E. unfold L in E. injection E as -> E1 E2. apply text_inj in E1. apply trace_inj in E2. subst tt. exists (n + 1). split; [|lia]. apply number_yes; [|exact Nu]. split; [exact K|]. split; [exact E1|reflexivity].
      * exists n. split; [|lia]. apply number_no; [|exact Nu]. intros (A & B & C). cbn [fst snd] in *. rewrite K in A. injection A as ->. injection C as ->. rewrite B in E. fold L in E. rewrite labels_refl in E. discriminate.
    + exists n. split; [|exact V]. apply number_no; [|exact Nu]. intros (A & _). cbn [fst] in A. congruence.
  - exists n. split; [|exact V]. apply number_no; [|exact Nu]. intros (_ & _ & C). discriminate.
Qed.
Theorem C128_offers : forall bridge es k c t, let r := run bridge start es in
  number (ended_as k c t) (snd r) (value (offers (fst r)) [bridge; k; client_text c; trace_text t]).
Proof. intros bridge es k c t r. destruct (run_counts bridge k c t es start 0 eq_refl) as (n & Nu & V). unfold r. rewrite V, N.add_0_l. exact Nu. Qed.
(** There is a series exactly for what has happened, once *)
Theorem C128_series : forall bridge es, let r := run bridge start es in NoDup (map fst (offers (fst r))) /\
  forall l, In l (map fst (offers (fst r))) <-> exists k c t x, l = [bridge; k; client_text c; trace_text t] /\ In x (snd r) /\ ended_as k c t x.
Proof.
  intros bridge es r.
  assert (G : forall es s, NoDup (map fst (offers s)) -> let r := run bridge s es in NoDup (map fst (offers (fst r))) /\
    forall l, In l (map fst (offers (fst r))) <-> In l (map fst (offers s)) \/ exists k c t x, l = [bridge; k; client_text c; trace_text t] /\ In x (snd r) /\ ended_as k c t x).
  { clear. induction es as [|e es IH]; intros s D; cbn [run]; [split; [exact D|]; intros l; split; [auto|]; intros [I|(k & c & t & x & _ & [] & _)]; exact I|].
    destruct (step bridge s e) as [s1 o] eqn:St.
    assert (H : NoDup (map fst (offers s1)) /\ forall l, In l (map fst (offers s1)) <-> In l (map fst (offers s)) \/ exists k c t x, l = [bridge; k; client_text c; trace_text t] /\ o = Some x /\ ended_as k c t x).
    { destruct e as [id kk p now|id tt now|id now]; cbn [step] in St; destruct (offer_of s id) as [o'|]; injection St as <- <-; cbn [offers];
        try (split; [exact D|]; intros l; split; [auto|]; intros [I|(k & c & t & x & _ & X & Y)]; [exact I|]; try discriminate X; injection X as <-; destruct Y as (_ & _ & Z); discriminate Z).
      destruct (kind o') as [k'|] eqn:K.
      - unfold report_offer. split; [apply inc_nodup; exact D|]. intros l. rewrite inc_keys. split; (intros [I|I]; [left; exact I|right]).
        + exists k', (peer o'), tt, (o', Some tt). split; [exact I|]. split; [reflexivity|]. split; [exact K|]. split; reflexivity.
        + destruct I as (k & c & t & x & -> & X & Y). injection X as <-. destruct Y as (Y1 & Y2 & Y3). cbn [fst snd] in *. congruence.
      - split; [exact D|]. intros l. split; [auto|]. intros [I|(k & c & t & x & _ & X & Y)]; [exact I|]. injection X as <-. destruct Y as (Y1 & _). cbn [fst] in Y1. congruence. }
    destruct H as (D1 & H). destruct (IH s1 D1) as (D2 & K). destruct (run bridge s1 es) as [s2 l2]. cbn [fst snd] in *. split; [exact D2|]. intros l. rewrite K, H.
    split.
    - intros [[I|(k & c & t & x & E & -> & Y)]|(k & c & t & x & E & I & Y)]; [left; exact I| |]; right; exists k, c, t, x; (split; [exact E|]); (split; [|exact Y]); [now left|]. destruct o; [now right|exact I].
    - intros [I|(k & c & t & x & E & I & Y)]; [left; left; exact I|]. destruct o as [y|]; [destruct I as [->|I]|]; [left; right|right|right]; exists k, c, t, x; auto. }
  destruct (G es start (NoDup_nil _)) as (D & K). unfold r. split; [exact D|]. intros l. specialize (K l). cbn zeta in K. cbn [start offers map In] in K. tauto.
Qed.
(** Every offer that ended, also one that was dropped, has one time; those that run have none *)
Theorem C128_times : forall bridge es, let r := run bridge start es in length (times (fst r)) = length (snd r).
Proof.
  intros bridge es r.
  assert (G : forall es s, length (times (fst (run bridge s es))) = (length (times s) + length (snd (run bridge s es)))%nat).
  { clear. induction es as [|e es IH]; intros s; cbn [run]; [cbn; lia|]. destruct (step bridge s e) as [s1 o] eqn:St. specialize (IH s1). destruct (run bridge s1 es) as [s2 l]. cbn [fst snd] in *. rewrite IH.
    destruct e as [id kk p now|id tt now|id now]; cbn [step] in St; destruct (offer_of s id) as [o'|]; injection St as <- <-; cbn [times length]; rewrite ?app_length; cbn [length]; lia. }
  unfold r. rewrite G. reflexivity.
Qed.
(** ... and it is the time from its begin to its end *)
Theorem C128_time : forall bridge s e o r, snd (step bridge s e) = Some (o, r) ->
  exists id now, offer_of s id = Some o /\ (e = Dropped id now /\ r = None \/ exists t, e = End id t now /\ r = Some t) /\
  times (fst (step bridge s e)) = times s ++ [now - began o].
Proof.
  intros bridge s e o r E. destruct e as [id kk p now|id t now|id now]; cbn [step] in *; destruct (offer_of s id) as [o'|] eqn:O; try discriminate; cbn [fst snd times] in *; injection E as <- <-; exists id, now; (split; [exact O|]); split; eauto.
Qed.
(** No offer runs twice *)
Theorem C128_running : forall bridge es, NoDup (map fst (running (fst (run bridge start es)))).
Proof.
  intros bridge es. assert (F : forall id l, NoDup (map fst l) -> NoDup (map fst (without id l)) /\ forall x, In x (map fst (without id l)) -> In x (map fst l)).
  { intros id. induction l as [|[i o] l IH]; cbn [without filter map fst]; intros D; [split; [constructor|auto]|]. inversion D as [|? ? A B]; subst. destruct (IH B) as (C & I). fold (without id l).
    destruct (negb (i =? id)); cbn [map fst]; [|split; [exact C|intros x X; right; auto]]. split; [constructor; [intros X; apply A; auto|exact C]|]. intros x [X|X]; [now left|right; auto]. }
  assert (G : forall es s, NoDup (map fst (running s)) -> NoDup (map fst (running (fst (run bridge s es))))).
  { clear -F. induction es as [|e es IH]; intros s D; cbn [run]; [exact D|]. destruct (step bridge s e) as [s1 o] eqn:St. specialize (IH s1). destruct (run bridge s1 es) as [s2 l]. cbn [fst] in *. apply IH.
    destruct e as [id kk p now|id t now|id now]; cbn [step] in St; destruct (offer_of s id) as [o'|] eqn:O; injection St as <- <-; cbn [running]; try exact D; try (apply F; exact D).
    cbn [map fst]. constructor; [|exact D]. intros I. apply in_map_iff in I as ((i & oo) & E & I). cbn in E. subst i. unfold offer_of in O.
    destruct (find (fun x => fst x =? id) (running s)) as [x|] eqn:Fi; [discriminate|]. apply (find_none _ _ Fi) in I. cbn in I. rewrite N.eqb_refl in I. discriminate. }
  apply G. constructor.
Qed.
(** Not so: that all offers are counted.  One of a series of headers is not, however it ends *)
Theorem C128_headers_refuted : forall bridge s id o t now, offer_of s id = Some o -> kind o = None -> offers (fst (step bridge s (End id t now))) = offers s.
Proof. intros bridge s id o t now E K. cbn [step]. rewrite E. cbn [fst offers]. rewrite K. reflexivity. Qed.
(** Not so: that peers cannot choose how many series there are.  Every new name of a client makes one *)
Fixpoint offers_to (lower : bytes -> bytes) (k : bytes) (names : list bytes) (id : N) : list event :=
  match names with [] => [] | n :: names => Begin id (Some k) (get_client_type lower (Some n)) 0 :: End id Failed 0 :: offers_to lower k names (id + 1) end.
Theorem C128_names_refuted : forall bridge lower k names, NoDup (map lower names) -> (forall n c, In n names -> ~ own_type (lower n) c) ->
  length (offers (fst (run bridge start (offers_to lower k names 0)))) = length names.
Proof.
  intros bridge lower k names D U.
  assert (G : forall names s id, running s = [] -> NoDup (map lower names) -> (forall n c, In n names -> ~ own_type (lower n) c) ->
    (forall n, In n names -> ~ In [bridge; k; client_text (Unknown (Some (lower n))); trace_text Failed] (map fst (offers s))) ->
    length (offers (fst (run bridge s (offers_to lower k names id)))) = (length (offers s) + length names)%nat).
  { clear. induction names as [|n names IH]; intros s id R D U Nw; cbn [offers_to run]; [cbn; lia|]. unfold step at 1, offer_of at 1. rewrite R. cbn [find option_map].
    unfold step at 1, offer_of at 1. cbn [running find fst snd option_map]. rewrite N.eqb_refl. cbn [option_map snd kind peer began offers times running]. unfold without. cbn [filter fst]. rewrite N.eqb_refl. cbn [negb].
    set (s2 := {| running := _; offers := report_offer _ _ _ _ _; times := _ |}). inversion D as [|? ? D1 D2]; subst.
    assert (C : get_client_type lower (Some n) = Unknown (Some (lower n))). { destruct (C128_clients lower n) as [(c & O & _)|(_ & E)]; [elim (U n c); [now left|exact O]|exact E]. }
    assert (O2 : offers s2 = offers s ++ [([bridge; k; client_text (Unknown (Some (lower n))); trace_text Failed], 1)]).
    { unfold s2. cbn [offers]. unfold report_offer. rewrite C. apply inc_new. apply Nw. now left. }
    specialize (IH s2 (id + 1) eq_refl D2). destruct (run bridge s2 (offers_to lower k names (id + 1))) as [s3 l3]. cbn [fst] in *. rewrite IH.
    - rewrite O2, app_length. cbn [length]. lia.
    - intros m c I. apply U. now right.
    - intros m I J. rewrite O2, map_app in J. apply in_app_iff in J as [J|[J|[]]]; [apply (Nw m); [now right|exact J]|]. cbn [fst] in J. injection J as J. apply app_inv_tail in J. apply D1. rewrite J. apply in_map. exact I. }
  rewrite G; [reflexivity|reflexivity|exact D|exact U|intros n _ []].
Qed.

(** ** Timers that are discarded when dropped *)
Theorem C128_timer : forall u began now now' h, let r := use_timer u now now' h (new_timer began) in
  match u with
  | Observe => r = (h ++ [now - began], None)
  | StopAndRecord => r = (h ++ [now - began], Some (now - began))
  | StopAndDiscard => r = (h, Some (now - began))
  | Drop => r = (h, None)
  end.
Proof. intros [] began now now' h; reflexivity. Qed.
(** Of many timers exactly those that are recorded are in the histogram, each once, in the order of their ends *)
Definition recorded (x : N * use * N * N) : bool := let '(_, u, _, _) := x in match u with Observe | StopAndRecord => true | _ => false end.
Theorem C128_timers : forall l, use_timers [] l = map (fun x => let '(a, _, b, _) := x in b - a) (filter recorded l).
Proof.
  intros l. assert (G : forall l h, use_timers h l = h ++ map (fun x => let '(a, _, b, _) := x in b - a) (filter recorded l)).
  { clear. induction l as [|[[[a u] b] c] l IH]; intros h; [now rewrite app_nil_r|]. unfold use_timers in *. cbn [fold_left]. rewrite IH. destruct u; cbn; rewrite <- ?app_assoc; reflexivity. }
  apply G.
Qed.
Print Assumptions C128_texts.
Print Assumptions C128_clients.
Print Assumptions C128_execution_refuted.
Print Assumptions C128_offers.
Print Assumptions C128_series.
Print Assumptions C128_times.
Print Assumptions C128_time.
Print Assumptions C128_running.
Print Assumptions C128_headers_refuted.
Print Assumptions C128_names_refuted.
Print Assumptions C128_timer.
Print Assumptions C128_timers.

(** Three offers of receipts, one of them dropped, one of headers, and one that still runs *)
Definition toy_lower (b : bytes) : bytes := map (fun c => if (65 <=? c) && (c <=? 90) then c + 32 else c) b.
Example C128_case :
  let k := lit "receipts" in let trin := get_client_type toy_lower (Some (lit "Trin")) in let odd := get_client_type toy_lower (Some (lit "mine")) in
  let r := run (lit "history") start [Begin 1 (Some k) trin 10; Begin 2 (Some k) odd 12; Begin 3 None trin 13; End 1 (Success AlreadyStored) 15; Begin 4 (Some k) trin 16;
    Dropped 2 18; End 3 Failed 20; Begin 5 (Some k) trin 21; End 4 (Success AlreadyStored) 25] in
  trin = Trin /\ client_text odd = lit "Unknown(mine)" /\ offers (fst r) = [([lit "history"; k; lit "Trin"; lit "AlreadyStored"], 2)] /\ times (fst r) = [5; 6; 7; 9] /\ length (snd r) = 4%nat /\
  map fst (running (fst r)) = [5] /\ toy_lower (client_text TrinExecution) = lit "trinexecution" /\
  NoDup (map toy_lower [lit "a"; lit "B"; lit "c"]) /\ length (offers (fst (run (lit "history") start (offers_to toy_lower k [lit "a"; lit "B"; lit "c"] 0)))) = 3%nat.
Proof.
  cbn zeta. repeat (split; [vm_compute; reflexivity|]). split; [|vm_compute; reflexivity].
  vm_compute. repeat constructor; cbn; intuition discriminate.
Qed.
