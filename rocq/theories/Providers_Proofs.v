(** Lemmas about the providers of data. *)
From Coq Require Import String Ascii.
From Verif Require Import Base Hex_Model Args_Model Header_Model LegacyHistory_Model Providers_Model Providers_Spec.

(** ** Members of objects *)
Lemma named_app k a b : named k (a ++ b) = named k a ++ named k b.
Proof. unfold named. rewrite filter_app, map_app. reflexivity. Qed.
Lemma named_none k l : named k l = [] <-> ~ In k (map fst l).
Proof.
  induction l as [|[k' j] l IH]; cbn; [tauto|]. unfold named in *. cbn. destruct (beqb k' k) eqn:E; cbn.
  - apply beqb_spec in E. subst. split; [discriminate|]. intros H. destruct H. auto.
  - apply beqb_false in E. rewrite IH. tauto.
Qed.
Lemma named_cons_inv k l j t : named k l = j :: t -> exists a b, l = a ++ (k, j) :: b /\ ~ In k (map fst a) /\ named k b = t.
Proof.
  induction l as [|[k' j'] l IH]; [discriminate|]. unfold named in *. cbn. destruct (beqb k' k) eqn:E; cbn.
  - apply beqb_spec in E. subst. intros [= -> H]. exists [], l. auto.
  - intros H. destruct (IH H) as (a & b & -> & F & G). exists ((k', j') :: a), b. cbn. repeat split; auto.
    intros [->|F']; [rewrite beqb_refl in E; discriminate | auto].
Qed.
Lemma named_one k l j : named (lit k) l = [j] <-> the_member k l j.
Proof.
  split.
  - intros H. apply named_cons_inv in H as (a & b & -> & F & G). apply named_none in G. exists a, b. split; [reflexivity|].
    rewrite map_app, in_app_iff. tauto.
  - intros (a & b & -> & F). rewrite map_app, in_app_iff in F. rewrite named_app.
    assert (A : named (lit k) a = []) by (apply named_none; tauto). rewrite A.
    assert (B : named (lit k) b = []) by (apply named_none; tauto).
    change (named (lit k) ((lit k, j) :: b)) with (map snd (if beqb (lit k) (lit k) then (lit k, j) :: filter (fun p => beqb (fst p) (lit k)) b else filter (fun p => beqb (fst p) (lit k)) b)).
    rewrite beqb_refl. cbn. fold (named (lit k) b). rewrite B. reflexivity.
Qed.
Lemma the_member_unique k l i j : the_member k l i -> the_member k l j -> i = j.
Proof. intros A B. apply named_one in A. apply named_one in B. congruence. Qed.
Lemma get_result j r : get (lit "result") j = Some r <-> result_of j r.
Proof.
  split.
  - destruct j as [| | | | |l]; try discriminate. unfold get. destruct (rev (named (lit "result") l)) as [|x t] eqn:E; [discriminate|]. intros [= ->].
    apply (f_equal (@rev _)) in E. rewrite rev_involutive in E. cbn [rev] in E.
    revert E. generalize (rev t). intros u E.
    assert (G : exists a b, l = a ++ (lit "result", r) :: b /\ named (lit "result") b = []).
    { clear t. revert l E. induction u as [|y u IH]; intros l E; cbn in E.
      - apply named_cons_inv in E as (a & b & -> & _ & G). eauto.
      - apply named_cons_inv in E as (a & b & -> & _ & G). destruct (IH b G) as (c & d & -> & K).
        exists (a ++ (lit "result", y) :: c), d. rewrite <- app_assoc. auto. }
    destruct G as (a & b & -> & G). apply named_none in G. exists a, b. auto.
  - intros (a & b & -> & F). unfold get. rewrite named_app. apply named_none in F.
    change (named (lit "result") ((lit "result", r) :: b)) with (r :: named (lit "result") b). rewrite F, rev_app_distr. reflexivity.
Qed.

(** ** Trying *)
Section Asking.
Variable ask : list exchange -> exchange -> sent.

Lemma send_with_spec n x h h' r : send_with ask n x h = (h', r) ->
  exists k, (1 <= k <= S n)%nat /\ h' = h ++ repeat x k /\ r = ask (h ++ repeat x (k - 1)) x /\
    (forall i, (i < k - 1)%nat -> transient (ask (h ++ repeat x i) x) = true) /\ ((k < S n)%nat -> transient r = false).
Proof.
  revert h. induction n as [|n IH]; intros h; cbn [send_with].
  - destruct (transient (ask h x)) eqn:E; intros [= <- <-]; exists 1%nat; cbn; rewrite ?app_nil_r; repeat split; auto; try lia; intros; lia.
  - destruct (transient (ask h x)) eqn:E.
    + intros H. destruct (IH _ H) as (k & K1 & -> & R & K2 & K3). exists (S k). split; [lia|].
      assert (A : forall i, (h ++ [x]) ++ repeat x i = h ++ repeat x (S i)) by (intros i; rewrite <- app_assoc; reflexivity).
      split; [apply A|]. split.
      { rewrite R, A. f_equal. f_equal. f_equal. lia. }
      split.
      * intros [|i] I; [cbn; rewrite app_nil_r; exact E|]. rewrite <- A. apply K2. lia.
      * intros L. apply K3. lia.
    + intros [= <- <-]. exists 1%nat. cbn. rewrite ?app_nil_r. repeat split; auto; try lia; intros; lia.
Qed.
Lemma transient_passing s : transient s = true <-> passing s.
Proof.
  destruct s as [a|r]; cbn; [tauto|]. rewrite !orb_true_iff, andb_true_iff, !N.eqb_eq, N.leb_le, N.ltb_lt. lia.
Qed.
Lemma send_tried x h h' r : send ask x h = (h', r) -> exists n, tried ask x h n r /\ h' = h ++ repeat x n.
Proof.
  intros H. apply send_with_spec in H as (k & K1 & K2 & K3 & K4 & K5). exists k. split; [|exact K2]. split; [lia|]. split; [exact K3|].
  split; [intros i L; apply transient_passing, K4, L|intros L P; apply transient_passing in P; rewrite (K5 L) in P; discriminate].
Qed.

(** [f] makes the request [x] and takes from the reply the answer in the sense of [D] *)
Definition answers {A} (D : sent -> A -> Prop) (f : list exchange -> list exchange * outcome A) (x : exchange) : Prop :=
  forall h h' o, f h = (h', o) -> exists n r, tried ask x h n r /\ h' = h ++ repeat x n /\ ((exists a, D r a /\ o = Ok a) \/ ((forall a, ~ D r a) /\ o = Err)).
Lemma answers_two {A} (D : sent -> A -> Prop) f g x y h h' o :
  answers D f x -> answers D g y -> match f h with (h, Err) => g h | r => r end = (h', o) -> first_then_second ask D x y h h' o.
Proof.
  intros F G. destruct (f h) as [h1 o1] eqn:E. destruct (F _ _ _ E) as (n & r & T & -> & [(a & Da & ->)|(ND & ->)]).
  - intros [= <- <-]. exists n, r. split; [exact T|]. left. eauto.
  - intros H. destruct (G _ _ _ H) as (m & s & T' & -> & Q). exists n, r. split; [exact T|]. right. split; [exact ND|].
    exists m, s. rewrite <- app_assoc. auto.
Qed.

Variable parse : bytes -> option json.
Section Value.
Context {T : Type}.
Variable ssz_dec : bytes -> option T.
Variable json_dec : json -> option T.

Lemma opt_member_spec (f : json -> bool) (P : json -> Prop) k l :
  (forall j, f j = true <-> P j) -> (exists j, opt_member f k l = Some j) <-> optional P k l.
Proof.
  intros FP. unfold opt_member, optional. destruct (named (lit k) l) as [|x [|y t]] eqn:E.
  - apply named_none in E. split; eauto.
  - pose proof E as E2. apply named_one in E2. destruct (is_null x) eqn:N; cbn.
    + destruct x; try discriminate. split; eauto.
    + destruct (f x) eqn:Fx.
      * apply FP in Fx. split; eauto.
      * split; [intros [j Hj]; discriminate|]. intros [H|[H|(j & H & PJ)]].
        -- apply named_none in H. congruence.
        -- rewrite (the_member_unique _ _ _ _ E2 H) in N. discriminate.
        -- rewrite <- (the_member_unique _ _ _ _ E2 H) in PJ. apply FP in PJ. congruence.
  - split; [intros [j Hj]; discriminate|]. intros [H|[H|(j & H & PJ)]].
    + apply named_none in H. congruence.
    + apply named_one in H. congruence.
    + apply named_one in H. congruence.
Qed.
Lemma is_str_spec j : is_str j = true <-> a_text j.
Proof. unfold a_text. destruct j; cbn; split; try discriminate; eauto; intros [s0 E]; congruence. Qed.
Lemma is_bool_spec j : is_bool j = true <-> a_bool j.
Proof. unfold a_bool. destruct j; cbn; split; try discriminate; eauto; intros [s0 E]; congruence. Qed.
Lemma version_member l j : opt_member is_str "version" l = Some j -> forall s, text_of j = Some s <-> the_member "version" l (JStr s).
Proof.
  intros H s0. unfold opt_member in H. destruct (named (lit "version") l) as [|x [|y t]] eqn:E; try discriminate.
  - injection H as <-. cbn. split; [discriminate|]. intros M. apply named_one in M. congruence.
  - destruct (is_null x || is_str x); [|discriminate]. injection H as <-. rewrite <- named_one, E.
    destruct x; cbn; split; intros Q; try discriminate; congruence.
Qed.

Lemma read_versioned_spec j v d : read_versioned json_dec j = Ok (v, d) <-> holds_data json_dec j v d.
Proof.
  split.
  - destruct j as [| | | |l|l]; cbn [read_versioned]; try discriminate.
    + destruct l as [|ver [|o [|f [|j [|? ?]]]]]; try discriminate.
      destruct (is_null ver || is_str ver) eqn:E1; [|discriminate]. destruct (is_null o || is_bool o) eqn:E2; [|discriminate].
      destruct (is_null f || is_bool f) eqn:E3; [|discriminate]. cbn. destruct (json_dec j) as [d'|] eqn:J; [|discriminate]. intros [= <- <-].
      assert (O : o = JNull \/ a_bool o) by (destruct o; cbn in E2; try discriminate; unfold a_bool; eauto).
      assert (F : f = JNull \/ a_bool f) by (destruct f; cbn in E3; try discriminate; unfold a_bool; eauto).
      destruct ver; try discriminate; cbn; constructor; auto.
    + destruct (opt_member is_str "version" l) as [ver|] eqn:E1; [|discriminate].
      destruct (opt_member is_bool "execution_optimistic" l) as [o|] eqn:E2; [|discriminate].
      destruct (opt_member is_bool "finalized" l) as [f|] eqn:E3; [|discriminate].
      destruct (named (lit "data") l) as [|x [|? ?]] eqn:E4; try discriminate. destruct (json_dec x) as [d'|] eqn:J; [|discriminate]. intros [= <- <-].
      apply named_one in E4. eapply in_object; eauto.
      * apply (opt_member_spec is_bool); [apply is_bool_spec|]. eauto.
      * apply (opt_member_spec is_bool); [apply is_bool_spec|]. eauto.
      * apply (opt_member_spec is_str); [apply is_str_spec|]. eauto.
      * apply version_member. exact E1.
  - intros H. destruct H as [l j d v M J O F V W|o f j d J O F|s o f j d J O F]; cbn [read_versioned].
    + apply (opt_member_spec is_bool) in O as [o ->]; [|apply is_bool_spec]. apply (opt_member_spec is_bool) in F as [f ->]; [|apply is_bool_spec].
      apply (opt_member_spec is_str) in V as [ver V]; [|apply is_str_spec]. rewrite V. apply named_one in M. rewrite M, J.
      pose proof (version_member _ _ V) as W2. f_equal. f_equal.
      destruct (text_of ver) as [s|] eqn:X.
      * symmetry. apply W. apply W2. reflexivity.
      * destruct v as [s|]; [|reflexivity]. assert (Y : None = Some s) by (apply W2, W; reflexivity). discriminate.
    + rewrite J. destruct O as [->|[? ->]], F as [->|[? ->]]; reflexivity.
    + rewrite J. destruct O as [->|[? ->]], F as [->|[? ->]]; reflexivity.
Qed.
Lemma read_versioned_no_panic j : read_versioned json_dec j <> Panic.
Proof.
  destruct j as [| | | |l|l]; cbn [read_versioned]; try discriminate.
  - destruct l as [|ver [|o [|f [|j [|? ?]]]]]; try discriminate. destruct (_ && _); [|discriminate]. destruct (json_dec j); discriminate.
  - destruct (opt_member is_str "version" l); [|discriminate]. destruct (opt_member is_bool "execution_optimistic" l); [|discriminate].
    destruct (opt_member is_bool "finalized" l); [|discriminate]. destruct (named (lit "data") l) as [|x [|? ?]]; try discriminate. destruct (json_dec x); discriminate.
Qed.
Lemma read_all_spec l vs : read_all json_dec l = Ok vs <-> Forall2 (fun j v => holds_data json_dec j (fst v) (snd v)) l vs.
Proof.
  revert vs. induction l as [|j l IH]; intros vs; cbn [read_all].
  - split; [intros [= <-]; constructor|]. intros H. inversion H. reflexivity.
  - split.
    + destruct (read_versioned json_dec j) as [[v d]| |] eqn:E; cbn; try discriminate. destruct (read_all json_dec l) as [w| |]; cbn; try discriminate.
      intros [= <-]. constructor; [apply read_versioned_spec; exact E | apply IH; reflexivity].
    + intros H. inversion H as [|? v ? w A B]; subst. destruct v as [v d]. apply read_versioned_spec in A. apply IH in B. cbn in A. rewrite A, B. reflexivity.
Qed.
Lemma read_all_no_panic l : read_all json_dec l <> Panic.
Proof.
  induction l as [|j l IH]; cbn; [discriminate|]. destruct (read_versioned json_dec j) eqn:E; cbn; try discriminate; [|destruct (read_versioned_no_panic _ E)].
  destruct (read_all json_dec l); cbn; congruence.
Qed.

Lemma base_request_spec e c b h h' o : base_request ask e c b h = (h', o) ->
  exists n r, tried ask (the_request c e b) h n r /\ h' = h ++ repeat (the_request c e b) n /\ o <> Panic /\
    (forall r' k, o = Ok (r', k) <-> r = Replied r' /\ content_type r' = Some (match k with Ssz => lit "application/octet-stream" | Json => lit "application/json" end)).
Proof.
  unfold base_request. destruct (send ask (the_request c e b) h) as [h1 r] eqn:E. apply send_tried in E as (n & T1 & ->). intros [= <- <-].
  exists n, r. split; [exact T1|]. split; [reflexivity|]. destruct r as [a|r]; [split; [discriminate|]; intros r' k; split; [discriminate | intros [? _]; discriminate]|].
  destruct (content_type r) as [t|] eqn:Ct; [|split; [discriminate|]; intros r' k; split; [discriminate | intros [[= <-] ?]; congruence]].
  destruct (beqb t SSZ_CONTENT_TYPE) eqn:B1; [|destruct (beqb t JSON_CONTENT_TYPE) eqn:B2].
  - apply beqb_spec in B1. subst t. change (readable SSZ_CONTENT_TYPE) with true. cbn [negb]. split; [discriminate|]. intros r' k. split.
    + intros [= <- <-]. auto.
    + intros [[= <-] Q]. rewrite Ct in Q. destruct k; [discriminate Q | reflexivity].
  - apply beqb_spec in B2. subst t. change (readable JSON_CONTENT_TYPE) with true. cbn [negb]. split; [discriminate|]. intros r' k. split.
    + intros [= <- <-]. auto.
    + intros [[= <-] Q]. rewrite Ct in Q. destruct k; [reflexivity | discriminate Q].
  - assert (Z : forall P : Prop, (if negb (readable t) then Err else Err) = @Err (response * content)) by (intros; destruct (negb _); reflexivity).
    rewrite (Z True). split; [discriminate|]. intros r' k. split; [discriminate|]. intros [[= <-] Q]. rewrite Ct in Q. injection Q as ->. destruct k.
    + apply beqb_false in B2. destruct B2. reflexivity.
    + apply beqb_false in B1. destruct B1. reflexivity.
Qed.

Lemma request_answers e c : answers (delivers parse ssz_dec json_dec) (request_no_fallback ask parse ssz_dec json_dec e c) (the_request c e false).
Proof.
  intros h h' o. unfold request_no_fallback. destruct (base_request ask e c false h) as [h1 o1] eqn:E.
  apply base_request_spec in E as (n & r & T1 & -> & NP & S). intros [= <- <-]. exists n, r. split; [exact T1|]. split; [reflexivity|].
  destruct o1 as [[r' k]| |]; [|right|destruct (NP eq_refl)].
  - destruct (S r' k) as [S1 _]. destruct (S1 eq_refl) as [-> Ct]. clear S S1 NP. destruct k; cbn [obind].
    + (* json *) unfold read_json. destruct (body r') as [b|] eqn:B.
      2:{ right. split; [|reflexivity]. intros a D. inversion D; subst; congruence. }
      destruct (parse b) as [j|] eqn:P.
      2:{ right. split; [|reflexivity]. intros a D. inversion D; subst; [rewrite Ct in *; discriminate|]. congruence. }
      destruct (read_versioned json_dec j) as [[v d]| |] eqn:R.
      * left. exists (v, d). split; [|reflexivity]. eapply in_json; eauto. apply read_versioned_spec. exact R.
      * right. split; [|reflexivity]. intros a D. inversion D as [? ? ? C1|? b' j' v d C1 B1 P1 H1]; subst; [rewrite Ct in C1; discriminate C1|].
        rewrite B in B1. injection B1 as <-. rewrite P in P1. injection P1 as <-. apply read_versioned_spec in H1. congruence.
      * destruct (read_versioned_no_panic _ R).
    + (* ssz *) destruct (match consensus_version r' with None => Ok None | Some v => if readable v then Ok (Some v) else Err end) as [v| |] eqn:V.
      * assert (W : v = consensus_version r' /\ forall v, consensus_version r' = Some v -> readable v = true).
        { destruct (consensus_version r') as [w|]; [|injection V as <-; split; [reflexivity | discriminate]].
          destruct (readable w) eqn:Q; [|discriminate]. injection V as <-. split; [reflexivity|]. intros ? [= <-]. exact Q. }
        destruct W as [-> W]. cbn [obind]. destruct (body r') as [b|] eqn:B.
        2:{ right. split; [|reflexivity]. intros a D. inversion D; subst; congruence. }
        destruct (ssz_dec b) as [d|] eqn:Q.
        -- left. exists (consensus_version r', d). split; [|reflexivity]. econstructor; eauto.
        -- right. split; [|reflexivity]. intros a D. inversion D as [? ? ? C1|? b' j' v d C1]; subst; [congruence|]. rewrite Ct in C1; discriminate C1.
      * right. split; [|reflexivity]. intros a D. inversion D as [? ? ? C1 B1 P1 H1|? b' j' v d C1 B1 P1 H1]; subst; [|rewrite Ct in C1; discriminate C1].
        destruct (consensus_version r') as [w|] eqn:X; [|discriminate]. rewrite (H1 w eq_refl) in V. discriminate.
      * destruct (consensus_version r') as [w|] eqn:X; [|discriminate]. destruct (readable w); discriminate.
  - split; [|reflexivity]. intros a D. inversion D as [r0 b d C1|r0 b j v d C1]; subst; destruct (S r0 Ssz) as [_ S1], (S r0 Json) as [_ S2].
    + discriminate S1. auto.
    + discriminate S2. auto.
Qed.
Lemma request_list_answers e c : answers (delivers_list parse json_dec) (request_list_no_fallback ask parse json_dec e c) (the_request c e true).
Proof.
  intros h h' o. unfold request_list_no_fallback. destruct (base_request ask e c true h) as [h1 o1] eqn:E.
  apply base_request_spec in E as (n & r & T1 & -> & NP & S). intros [= <- <-]. exists n, r. split; [exact T1|]. split; [reflexivity|].
  destruct o1 as [[r' k]| |]; [|right|destruct (NP eq_refl)].
  - destruct (S r' k) as [S1 _]. destruct (S1 eq_refl) as [-> Ct]. clear S S1 NP. destruct k; cbn [obind].
    + unfold read_json. destruct (body r') as [b|] eqn:B.
      2:{ right. split; [|reflexivity]. intros a D. inversion D; subst; congruence. }
      destruct (parse b) as [j|] eqn:P.
      2:{ right. split; [|reflexivity]. intros a D. inversion D; subst. congruence. }
      assert (N : (forall l, j <> JArr l) -> forall a, ~ delivers_list parse json_dec (Replied r') a).
      { intros N a D. inversion D as [? b' l v C1 B1 P1 H1]; subst. rewrite B in B1. injection B1 as <-. rewrite P in P1. injection P1 as ->. exact (N l eq_refl). }
      destruct j as [| | | |l|]; try (right; split; [apply N; discriminate | reflexivity]). clear N.
      destruct (read_all json_dec l) as [vs| |] eqn:R.
      * left. exists vs. split; [|reflexivity]. econstructor; eauto. apply read_all_spec. exact R.
      * right. split; [|reflexivity]. intros a D. inversion D as [? b' l' v C1 B1 P1 H1]; subst.
        rewrite B in B1. injection B1 as <-. rewrite P in P1. injection P1 as <-. apply read_all_spec in H1. congruence.
      * destruct (read_all_no_panic _ R).
    + right. split; [|reflexivity]. intros a D. inversion D as [? b' l' v C1 B1 P1 H1]; subst. rewrite Ct in C1. discriminate C1.
  - split; [|reflexivity]. intros a D. inversion D as [r0 b l v C1]; subst; destruct (S r0 Json) as [_ S2]. discriminate S2. auto.
Qed.
End Value.

(** ** The execution API *)
Variable env : bytes -> option bytes.
Lemma send_request_answers c q : answers (replies parse) (send_request ask parse c q) (post_request c (Post q)).
Proof.
  intros h h' o. unfold send_request. destruct (send ask (post_request c (Post q)) h) as [h1 r] eqn:E. apply send_tried in E as (n & T & ->). intros [= <- <-].
  exists n, r. split; [exact T|]. split; [reflexivity|]. destruct r as [a|r]; [right; split; [|reflexivity]; intros x D; inversion D|].
  unfold read_json. destruct (body r) as [b|] eqn:B; [|right; split; [|reflexivity]; intros x D; inversion D; congruence].
  destruct (parse b) as [j|] eqn:P; [left; exists j; split; [econstructor; eauto | reflexivity] | right; split; [|reflexivity]; intros x D; inversion D; congruence].
Qed.
Lemma send_batch_answers c q : answers (replies_list parse) (send_batch_request ask parse c q) (post_request c (PostAll q)).
Proof.
  intros h h' o. unfold send_batch_request. destruct (send ask (post_request c (PostAll q)) h) as [h1 r] eqn:E. apply send_tried in E as (n & T & ->). intros [= <- <-].
  exists n, r. split; [exact T|]. split; [reflexivity|]. destruct r as [a|r]; [right; split; [|reflexivity]; intros x D; inversion D|].
  unfold read_json. destruct (body r) as [b|] eqn:B; [|right; split; [|reflexivity]; intros x D; inversion D; congruence].
  destruct (parse b) as [j|] eqn:P; [|right; split; [|reflexivity]; intros x D; inversion D; congruence].
  assert (N : (forall l, j <> JArr l) -> forall a, ~ replies_list parse (Replied r) a).
  { intros N a D. inversion D as [? ? l B1 P1]; subst. rewrite B in B1. injection B1 as <-. rewrite P in P1. injection P1 as ->. exact (N _ eq_refl). }
  destruct j as [| | | |l|]; try (right; split; [apply N; discriminate | reflexivity]). left. exists l. split; [econstructor; eauto | reflexivity].
Qed.
Lemma try_with_spec {A} (D : sent -> A -> Prop) f api p s (x : client -> exchange) h h' o :
  (forall c, answers D (f c) (x c)) -> client_new env (primary api) Json = Ok p -> client_new env (fallback api) Json = Ok s ->
  try_with env f api h = (h', o) -> first_then_second ask D (x p) (x s) h h' o.
Proof. intros F P S. unfold try_with. rewrite P, S. apply answers_two; apply F. Qed.
End Asking.

(** ** Numbers in text *)
Lemma radix_length n b dig x : (length (radix n b dig x) <= n)%nat.
Proof. revert x. induction n as [|n IH]; intros x; cbn; [lia|]. rewrite app_length. cbn. destruct (x / b =? 0); cbn; [lia|]. specialize (IH (x / b)). lia. Qed.
Definition step (b : N) (val : N -> option N) (a : option N) (c : N) : option N := match a, val c with Some a, Some v => Some (a * b + v) | _, _ => None end.
Lemma radix_value n b dig val x : 2 <= b -> (forall d, d < b -> val (dig d) = Some d) -> x < 2 ^ N.of_nat n -> x <> 0 \/ n <> O ->
  fold_left (step b val) (radix n b dig x) (Some 0) = Some x.
Proof.
  intros B V. revert x. induction n as [|n IH]; intros x L NZ.
  - assert (x = 0) by (change (2 ^ N.of_nat 0) with 1 in L; lia). subst. reflexivity.
  - cbn [radix]. rewrite fold_left_app. cbn [fold_left].
    assert (M : x mod b < b) by (apply N.mod_upper_bound; lia).
    destruct (N.eqb_spec (x / b) 0) as [Z|Z].
    + cbn [fold_left]. unfold step. rewrite V by exact M. f_equal. pose proof (N.div_mod x b ltac:(lia)) as Q. rewrite Z in Q. lia.
    + rewrite IH.
      * unfold step. rewrite V by exact M. f_equal. pose proof (N.div_mod x b ltac:(lia)) as Q. lia.
      * replace (N.of_nat (S n)) with (N.succ (N.of_nat n)) in L by lia. rewrite N.pow_succ_r' in L.
        apply N.div_lt_upper_bound; [lia|]. eapply N.lt_le_trans; [exact L | apply N.mul_le_mono_r; exact B].
      * left. exact Z.
Qed.
Lemma radix_head n b dig x : 2 <= b -> (forall d, d < b -> dig d = 48 -> d = 0) -> dig 0 = 48 -> x < 2 ^ N.of_nat n -> hd 0 (radix n b dig x) = 48 -> n <> O -> radix n b dig x = [48].
Proof.
  intros B D D0. revert x. induction n as [|n IH]; intros x L H NZ; [congruence|]. cbn [radix] in *.
  assert (M : x mod b < b) by (apply N.mod_upper_bound; lia).
  destruct (N.eqb_spec (x / b) 0) as [Z|Z].
  - cbn in *. congruence.
  - exfalso.
    replace (N.of_nat (S n)) with (N.succ (N.of_nat n)) in L by lia. rewrite N.pow_succ_r' in L.
    assert (L' : x / b < 2 ^ N.of_nat n) by (apply N.div_lt_upper_bound; [lia|]; eapply N.lt_le_trans; [exact L | apply N.mul_le_mono_r; exact B]).
    destruct n as [|n]; [change (2 ^ N.of_nat 0) with 1 in L'; apply Z, N.lt_1_r, L'|].
    assert (K : forall k y, radix (S k) b dig y <> []) by (intros k y E; cbn in E; destruct (y / b =? 0); [discriminate | eapply app_cons_not_nil; symmetry; exact E]).
    assert (Hd : hd 0 (radix (S n) b dig (x / b)) = 48) by (destruct (radix (S n) b dig (x / b)) as [|c t] eqn:E; [destruct (K _ _ E) | exact H]).
    specialize (IH _ L' Hd ltac:(discriminate)). clear H.
    (* the number written is zero, against Z *)
    assert (G : forall k y, y < 2 ^ N.of_nat (S k) -> radix (S k) b dig y = [48] -> y = 0).
    { clear -B D K. intros k y Ly E. cbn [radix] in E. destruct (N.eqb_spec (y / b) 0) as [Z|Z].
      - cbn in E. injection E as E. apply D in E; [|apply N.mod_upper_bound; lia]. pose proof (N.div_mod y b ltac:(lia)) as Q. rewrite Z, E in Q. rewrite Q. ring.
      - destruct k as [|k].
        + exfalso. change (2 ^ N.of_nat 1) with 2 in Ly. assert (y / b = 0) by (apply N.div_small; lia). congruence.
        + destruct (radix (S k) b dig (y / b)) as [|c t] eqn:Q; [destruct (K _ _ Q)|]. cbn in E. injection E as -> E. apply app_eq_nil in E as [_ E]. discriminate. }
    apply Z, (G _ _ L' IH).
Qed.
Lemma hex_val_digit d : d < 10 -> hex_val (hex_digit d) = Some d.
Proof. intros L. unfold hex_digit, hex_val. replace (d <? 10) with true by lia. replace ((48 <=? 48 + d) && (48 + d <=? 57)) with true by lia. f_equal. lia. Qed.
Lemma reads_radix b dig val x : 2 <= b -> (forall d, d < b -> val (dig d) = Some d) -> (forall d, d < b -> dig d = 48 -> d = 0) -> dig 0 = 48 -> x < 2 ^ 64 ->
  reads b val (radix 64 b dig x) x.
Proof.
  intros B V D D0 L. split; [|split].
  - apply (radix_value 64 b dig val x B V L). right. discriminate.
  - cbn [radix]. destruct (x / b =? 0); [discriminate|]. intros E. eapply app_cons_not_nil. symmetry. exact E.
  - intros H. apply radix_head; auto.
Qed.
