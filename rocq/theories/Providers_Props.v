(** C115: asking the providers of beacon and execution data. *)
From Coq Require Import String Ascii.
From Verif Require Import Base Hex_Model Hex_Proofs Args_Model Header_Model LegacyHistory_Model Providers_Model Providers_Spec Providers_Proofs.

Lemma contains_text_spec t s : contains_text t s = true <-> occurs t s.
Proof.
  assert (F : forall s, beqb (firstn (length t) s) t = true <-> exists b, s = t ++ b).
  { clear. intros s. rewrite beqb_spec. split.
    - intros E. exists (skipn (length t) s). rewrite <- E at 1. symmetry. apply firstn_skipn.
    - intros [b ->]. rewrite firstn_app, Nat.sub_diag, firstn_all. apply app_nil_r. }
  induction s as [|c s IH].
  - cbn [contains_text]. rewrite orb_false_r. rewrite F. split.
    + intros [b E]. exists [], b. exact E.
    + intros (a & b & E). symmetry in E. apply app_eq_nil in E as [-> E]. eauto.
  - cbn [contains_text]. rewrite orb_true_iff, F, IH. split.
    + intros [[b E]|(a & b & ->)]; [exists [], b; exact E | exists (c :: a), b; reflexivity].
    + intros ([|a0 a] & b & E); [left; exists b; exact E|]. injection E as -> ->. right. exists a, b. reflexivity.
Qed.
Lemma cut_join r : fst (cut r) ++ match snd (cut r) with Some s => lit "?" ++ s | None => [] end = r.
Proof.
  induction r as [|c r IH]; [reflexivity|]. cbn [cut]. destruct (N.eqb_spec c 63) as [->|N]; [reflexivity|].
  destruct (cut r) as [p q]. cbn [fst snd] in *. cbn. f_equal. exact IH.
Qed.
Lemma endpoint_cons q : exists c t, endpoint q = c :: t.
Proof. destruct q; cbn; eauto. Qed.
Lemma asks_request p q b : asks (base_url p) q (the_request p (endpoint q) b).
Proof.
  assert (G : asks (base_url p) q (get_request p (endpoint q))).
  { destruct (endpoint_cons q) as (c & t & E). unfold asks, get_request, join. cbn [to_url sends]. rewrite E. cbn [scheme host port path query]. repeat split.
    rewrite <- E. apply cut_join. }
  destruct b; [|exact G]. exact G.
Qed.
Lemma first_then_second_map {A B} ask (D : sent -> A -> Prop) (f : A -> B) x y h h' o :
  first_then_second ask D x y h h' o -> first_then_second ask (fun r b => exists a, D r a /\ b = f a) x y h h' (omap f o).
Proof.
  intros (n & r & T & [(a & Da & -> & ->)|(ND & m & s & T' & -> & Q)]); exists n, r; split; try exact T.
  - left. exists (f a). cbn. eauto.
  - right. split; [intros b (a & Da & _); exact (ND a Da)|]. exists m, s. split; [exact T'|]. split; [reflexivity|].
    destruct Q as [(a & Da & ->)|(ND' & ->)]; [left; exists (f a); cbn; eauto|]. right. split; [intros b (a & Da & _); exact (ND' a Da) | reflexivity].
Qed.

Lemma client_url env u k c : client_new env u k = Ok c -> base_url c = u.
Proof. unfold client_new. destruct (get_authorization_headers env u); cbn; intros [= <-]; reflexivity. Qed.
Lemma usable_client env u k : usable env u -> exists c, client_new env u k = Ok c.
Proof.
  intros (h & H & V). unfold client_new, get_authorization_headers. rewrite H. destruct (contains_text (lit "pandaops.io") h) eqn:C; [|cbn; eauto].
  apply contains_text_spec in C. specialize (V C).
  assert (W : forall n, header_value (match env n with Some v => v | None => lit "null" end) = true).
  { intros n. destruct (env n) eqn:E; [eapply V; exact E | reflexivity]. }
  rewrite !W. cbn. eauto.
Qed.

Section Beacon.
Variables (ask : list exchange -> exchange -> sent) (parse : bytes -> option json).
Context {T : Type} (ssz_dec : bytes -> option T) (json_dec : json -> option T).

(** C115: whatever the providers do, an answer of the beacon API is what the first provider delivered in the form it names, SSZ or JSON;
    or, if it delivered nothing of the kind, what the second did.  Each is asked at its host for what is wanted, once or, as long as it fails
    in passing, up to four times, and the second only after the first has failed. *)
Theorem C115_beacon primary fallback q h h' o :
  beacon_get ask parse ssz_dec json_dec primary fallback q h = (h', o) ->
  exists x y, asks (base_url primary) q x /\ asks (base_url fallback) q y /\ headers x = default_headers primary /\ headers y = default_headers fallback /\
    first_then_second ask (fun r d => exists v, delivers parse ssz_dec json_dec r (v, d)) x y h h' o.
Proof.
  unfold beacon_get. destruct (request _ _ _ _ _ _ _ _) as [h1 o1] eqn:E. intros [= <- <-].
  unfold request in E. apply (answers_two _ (delivers parse ssz_dec json_dec) _ _ _ _ _ _ _ (request_answers ask parse ssz_dec json_dec (endpoint q) primary) (request_answers ask parse ssz_dec json_dec (endpoint q) fallback)) in E.
  exists (the_request primary (endpoint q) false), (the_request fallback (endpoint q) false).
  split; [apply asks_request|]. split; [apply asks_request|]. split; [reflexivity|]. split; [reflexivity|].
  apply (first_then_second_map _ _ snd) in E. revert E.
  assert (W : forall r d, (exists a, delivers parse ssz_dec json_dec r a /\ d = snd a) <-> exists v, delivers parse ssz_dec json_dec r (v, d)).
  { intros r d. split; [intros ([v d'] & D & ->); exists v; exact D | intros [v D]; exists (v, d); auto]. }
  intros (n & r & T1 & [(a & Da & Q)|(ND & m & s & T2 & H2 & Q)]); exists n, r; split; try exact T1.
  - left. exists a. rewrite <- W. tauto.
  - right. split; [intros a X; apply W in X; exact (ND a X)|]. exists m, s. split; [exact T2|]. split; [exact H2|].
    destruct Q as [(a & Da & ->)|(ND' & ->)]; [left; exists a; rewrite <- W; auto | right]. split; [|reflexivity]. intros a X. apply W in X. exact (ND' a X).
Qed.

(** C115: the same for lists of updates, which are asked for and taken in JSON only; all the values are there, in their order. *)
Theorem C115_updates primary fallback start count h h' o :
  beacon_updates ask parse json_dec primary fallback start count h = (h', o) ->
  exists x y, asks (base_url primary) (Updates start count) x /\ asks (base_url fallback) (Updates start count) y /\
    (forall v, In (lit "accept", v) (headers x) \/ In (lit "accept", v) (headers y) <-> v = lit "application/json;q=1") /\
    first_then_second ask (fun r ds => exists vs, delivers_list parse json_dec r vs /\ ds = map snd vs) x y h h' o.
Proof.
  unfold beacon_updates. destruct (request_list _ _ _ _ _ _ _) as [h1 o1] eqn:E. intros [= <- <-].
  unfold request_list in E. apply (answers_two _ (delivers_list parse json_dec) _ _ _ _ _ _ _ (request_list_answers ask parse json_dec _ primary) (request_list_answers ask parse json_dec _ fallback)) in E.
  exists (the_request primary (endpoint (Updates start count)) true), (the_request fallback (endpoint (Updates start count)) true).
  split; [apply asks_request|]. split; [apply asks_request|]. split.
  - assert (I : forall v l, In (lit "accept", v) (list_headers l) <-> v = lit "application/json;q=1").
    { intros v l. unfold list_headers. generalize (insert_header (lit "content-type") JSON_CONTENT_TYPE l). intros m. unfold insert_header. rewrite in_app_iff, filter_In. cbn [fst].
      rewrite beqb_refl. split; [intros [[_ F]|[F|[]]]; [discriminate F | assert (Q : v = JSON_ACCEPT_PRIORITY) by congruence; exact Q] | intros ->; right; left; reflexivity]. }
    intros v. change (headers (the_request primary (endpoint (Updates start count)) true)) with (list_headers (default_headers primary)).
    change (headers (the_request fallback (endpoint (Updates start count)) true)) with (list_headers (default_headers fallback)). rewrite !I. tauto.
  - exact (first_then_second_map _ _ (map snd) _ _ _ _ _ E).
Qed.
End Beacon.

Lemma decimal_reads x : x < 2 ^ 64 -> reads 10 hex_val (decimal x) x.
Proof.
  intros L. apply reads_radix; [lia| | |reflexivity|exact L].
  - exact hex_val_digit.
  - intros d Ld. unfold hex_digit. replace (d <? 10) with true by lia. lia.
Qed.
Lemma quantity_reads x : x < 2 ^ 64 -> exists s, quantity x = lit "0x" ++ s /\ reads 16 hex_val s x.
Proof.
  intros L. eexists. split; [reflexivity|]. apply reads_radix; [lia| | |reflexivity|exact L].
  - intros d Ld. unfold hex_digit_upper, hex_val. destruct (N.ltb_spec d 10).
    + replace ((48 <=? 48 + d) && (48 + d <=? 57)) with true by lia. f_equal. lia.
    + replace ((48 <=? 55 + d) && (55 + d <=? 57)) with false by lia. replace ((97 <=? 55 + d) && (55 + d <=? 102)) with false by lia.
      replace ((65 <=? 55 + d) && (55 + d <=? 70)) with true by lia. f_equal. lia.
  - intros d Ld. unfold hex_digit_upper. destruct (N.ltb_spec d 10); lia.
Qed.
Lemma reads_inj b v s x y : reads b v s x -> reads b v s y -> x = y.
Proof. intros [A _] [B _]. congruence. Qed.
Lemma decimal_digits n x : Forall (fun c => 48 <= c <= 57) (radix n 10 hex_digit x).
Proof.
  revert x. induction n as [|n IH]; intros x; cbn [radix]; [constructor|]. apply Forall_app. split.
  - destruct (x / 10 =? 0); [constructor | apply IH].
  - constructor; [|constructor]. unfold hex_digit. assert (x mod 10 < 10) by (apply N.mod_upper_bound; lia). destruct (N.ltb_spec (x mod 10) 10); lia.
Qed.
Lemma split_unique (a b : bytes) c x y : Forall (fun d => d <> c) a -> Forall (fun d => d <> c) b -> a ++ c :: x = b ++ c :: y -> a = b /\ x = y.
Proof.
  intros A. revert b. induction A as [|d a D A IH]; intros b B E; destruct B as [|d' b D' B]; cbn in E.
  - injection E as ->. auto.
  - injection E as E1 E2. congruence.
  - injection E as E1 E2. congruence.
  - injection E as -> E. destruct (IH b B E) as [-> ->]. auto.
Qed.

(** C115: different requests are made at different places. *)
Theorem C115_endpoints q q' : valid_request q -> valid_request q' -> endpoint q = endpoint q' -> q = q'.
Proof.
  intros V V'. destruct q as [|r|i|a b| | | |i|i], q' as [|r'|i'|a' b'| | | |i'|i'];
    try (cbn; intros E; discriminate E); try reflexivity; unfold endpoint; intros E.
  - apply app_inv_head in E. f_equal. cbn [valid_request] in V, V'. apply (f_equal hex_decode) in E. destruct (hex_round_trip r V) as [E1 _], (hex_round_trip r' V') as [E2 _]. congruence.
  - apply app_inv_head, app_inv_tail in E. congruence.
  - apply app_inv_head in E. destruct V as [A B], V' as [A' B'].
    assert (N : forall x, Forall (fun d => d <> 38) (decimal x)).
    { intros x. eapply Forall_impl; [|apply (decimal_digits 64 x)]. cbn. lia. }
    change (lit "&count=") with (38 :: lit "count=") in E. cbn [app] in E. apply split_unique in E as [E1 E2]; try apply N.
    apply app_inv_head in E2. f_equal.
    + apply (reads_inj 10 hex_val (decimal a)); [apply decimal_reads; exact A | rewrite E1; apply decimal_reads; exact A'].
    + apply (reads_inj 10 hex_val (decimal b)); [apply decimal_reads; exact B | rewrite E2; apply decimal_reads; exact B'].
  - apply app_inv_head in E. congruence.
  - apply app_inv_head in E. congruence.
Qed.

Section Execution.
Variables (ask : list exchange -> exchange -> sent) (parse : bytes -> option json) (env : bytes -> option bytes).
Context {tx rct wdl : Type} (paris : N -> bool).
Variables (block_dec : json -> option (@rpc_block tx wdl)) (header_dec : json -> option full_header) (receipts_dec : json -> option (list rct)).

Lemma try_request_spec api q h h' o : usable env (primary api) -> usable env (fallback api) -> try_request ask parse env api q h = (h', o) ->
  exists x y, to_url x = primary api /\ sends x = Post q /\ to_url y = fallback api /\ sends y = Post q /\ first_then_second ask (replies parse) x y h h' o.
Proof.
  intros U V E. destruct (usable_client _ _ Json U) as [p P], (usable_client _ _ Json V) as [s S].
  exists (post_request p (Post q)), (post_request s (Post q)). cbn. split; [apply (client_url _ _ _ _ P)|]. split; [reflexivity|]. split; [apply (client_url _ _ _ _ S)|]. split; [reflexivity|].
  exact (try_with_spec ask env (replies parse) _ api p s (fun c => post_request c (Post q)) h h' o (fun c => send_request_answers ask parse c q) P S E).
Qed.
Lemma first_then_second_no_panic {A} (D : sent -> A -> Prop) x y h h' o : first_then_second ask D x y h h' o -> o <> Panic.
Proof. intros (n & r & _ & [(a & _ & -> & _)|(_ & m & s & _ & _ & [(a & _ & ->)|(_ & ->)])]); discriminate. Qed.

(** C115: a block is asked for by its number, from the first provider and, only if it sends no JSON, from the second.  What comes back is a block
    of the time after the merge that one of them sent, without ommers. *)
Theorem C115_block api height h h' o :
  usable env (primary api) -> usable env (fallback api) -> height < 2 ^ 64 ->
  get_block ask parse env paris block_dec api height h = (h', o) ->
  exists x y j, calls_at (primary api) "eth_getBlockByNumber" height [JBool true] x /\ calls_at (fallback api) "eth_getBlockByNumber" height [JBool true] y /\
    first_then_second ask (replies parse) x y h h' j /\
    ((exists v r b, j = Ok v /\ result_of v r /\ block_dec r = Some b /\ paris (number (rpc_header b)) = true /\
        o = Ok (rpc_header b, {| transactions := match rpc_txs b with Full l => l | Hashes _ => [] end; ommers := []; withdrawals := rpc_withdrawals b |}))
     \/ o = Err /\ forall v r b, j = Ok v -> result_of v r -> block_dec r = Some b -> paris (number (rpc_header b)) = false).
Proof.
  intros U V L. unfold get_block. destruct (try_request _ _ _ _ _ _) as [h1 j] eqn:E. intros [= <- <-].
  destruct (try_request_spec _ _ _ _ _ U V E) as (x & y & X1 & X2 & Y1 & Y2 & F). destruct (quantity_reads height L) as (s & Q & R).
  exists x, y, j. split; [split; [exact X1|]; eexists _, s; split; [exact X2|]; cbn [method params block_call receipts_call]; rewrite Q; auto|].
  split; [split; [exact Y1|]; eexists _, s; split; [exact Y2|]; cbn [method params block_call receipts_call]; rewrite Q; auto|]. split; [exact F|].
  destruct j as [v| |]; cbn [obind]; [|right; split; [reflexivity | discriminate]|destruct (first_then_second_no_panic _ _ _ _ _ _ F eq_refl)].
  destruct (get (lit "result") v) as [r|] eqn:G.
  - destruct (block_dec r) as [b|] eqn:B.
    + destruct (paris (number (rpc_header b))) eqn:P; cbn.
      * left. exists v, r, b. apply get_result in G. auto.
      * right. split; [reflexivity|]. intros v' r' b' [= <-] R' B'. apply get_result in R'. congruence.
    + right. split; [reflexivity|]. intros v' r' b' [= <-] R' B'. apply get_result in R'. congruence.
  - right. split; [reflexivity|]. intros v' r' b' [= <-] R' B'. apply get_result in R'. congruence.
Qed.

(** C115: the body that is offered for a block is the body of that block's header, under the hash of the header. *)
Theorem C115_body (HC : codec full_header) (HL : codec (list full_header)) (TC : codec tx) (WC : codec wdl) keccak trie_root head (b : @block_body tx wdl) key value :
  get_block_body HC HL TC WC keccak trie_root (head, b) = Ok (key, value) ->
  key = keccak (enc HC head) /\ value = b /\ trie_root (map (enc TC) (transactions b)) = transactions_root head /\ keccak (enc HL (ommers b)) = ommers_hash head /\
  (forall ws, withdrawals b = Some ws -> withdrawals_root head = Some (trie_root (map (enc WC) ws))).
Proof.
  unfold get_block_body, validate_against_header. cbn [fst snd]. destruct (beqb (keccak _) _) eqn:E1; cbn [negb]; [|discriminate].
  destruct (beqb (trie_root (map (enc TC) _)) _) eqn:E2; cbn [negb]; [|discriminate]. apply beqb_spec in E1, E2. intros H.
  assert (Q : (forall ws, withdrawals b = Some ws -> withdrawals_root head = Some (trie_root (map (enc WC) ws))) /\ Ok (keccak (enc HC head), b) = Ok (key, value)).
  { destruct (withdrawals b) as [ws|]; [|split; [discriminate | exact H]]. destruct (withdrawals_root head) as [e|]; [|discriminate].
    destruct (beqb _ e) eqn:E3; [|discriminate]. apply beqb_spec in E3. split; [intros ? [= <-]; congruence | exact H]. }
  destruct Q as [W [= <- <-]]. auto.
Qed.

(** C115: the number of the latest block is that of a header one of the providers sent, the second only if the first sent no JSON. *)
Theorem C115_latest api h h' o :
  usable env (primary api) -> usable env (fallback api) ->
  get_latest_block_number ask parse env header_dec api h = (h', o) ->
  exists x y j c, to_url x = primary api /\ to_url y = fallback api /\ sends x = Post c /\ sends y = Post c /\
    method c = lit "eth_getBlockByNumber" /\ params c = [JStr (lit "latest"); JBool false] /\
    first_then_second ask (replies parse) x y h h' j /\
    forall n, o = Ok n <-> exists v r b, j = Ok v /\ result_of v r /\ header_dec r = Some b /\ n = number b.
Proof.
  intros U V. unfold get_latest_block_number. destruct (try_request _ _ _ _ _ _) as [h1 j] eqn:E. intros [= <- <-].
  destruct (try_request_spec _ _ _ _ _ U V E) as (x & y & X1 & X2 & Y1 & Y2 & F). exists x, y, j, latest_call. repeat (split; [assumption || reflexivity|]).
  intros n. destruct j as [v| |]; cbn [obind]; [|split; [discriminate | intros (? & ? & ? & ? & _); discriminate] | destruct (first_then_second_no_panic _ _ _ _ _ _ F eq_refl)].
  destruct (get (lit "result") v) as [r|] eqn:G.
  - destruct (header_dec r) as [b|] eqn:B.
    + apply get_result in G. split; [intros [= <-]; exists v, r, b; auto|]. intros (v' & r' & b' & [= <-] & R & B' & ->). apply get_result in G. apply get_result in R. congruence.
    + split; [discriminate|]. intros (v' & r' & b' & [= <-] & R & B' & ->). apply get_result in R. congruence.
  - split; [discriminate|]. intros (v' & r' & b' & [= <-] & R & B' & ->). apply get_result in R. congruence.
Qed.

Lemma last_exchange {A} (D : sent -> A -> Prop) x y h h' a : first_then_second ask D x y h h' (Ok a) ->
  exists hp z, h' = hp ++ [z] /\ (z = x \/ z = y) /\ D (ask hp z) a /\ exists k, hp = h ++ k /\ (length k <= 7)%nat.
Proof.
  assert (R : forall (z : exchange) n, (1 <= n)%nat -> repeat z n = repeat z (n - 1) ++ [z]).
  { intros z n L. replace n with ((n - 1) + 1)%nat at 1 by lia. rewrite repeat_app. reflexivity. }
  intros (n & r & (T1 & T2 & _) & [(b & Da & [= <-] & ->)|(ND & m & s & (S1 & S2 & _) & -> & [(b & Da & [= <-])|(_ & Q)])]); [| |discriminate].
  - exists (h ++ repeat x (n - 1)), x. rewrite <- app_assoc, <- R by lia. subst r. split; [reflexivity|]. split; [auto|]. split; [exact Da|].
    eexists. split; [reflexivity|]. rewrite repeat_length. lia.
  - exists (h ++ repeat x n ++ repeat y (m - 1)), y. rewrite <- !app_assoc, <- R by lia. subst s. split; [reflexivity|]. split; [auto|]. rewrite <- app_assoc in Da. split; [exact Da|].
    eexists. split; [reflexivity|]. rewrite app_length, !repeat_length. lia.
Qed.
Lemma at_most_eight {A} (D : sent -> A -> Prop) x y h h' o : first_then_second ask D x y h h' o -> exists k, h' = h ++ k /\ (length k <= 8)%nat /\ Forall (fun z => z = x \/ z = y) k.
Proof.
  assert (R : forall (z : exchange) n, Forall (fun w => w = z) (repeat z n)) by (intros z n; apply Forall_forall; intros w I; apply repeat_spec in I; exact I).
  intros (n & r & (T1 & _) & [(b & _ & _ & ->)|(_ & m & s & (S1 & _) & -> & _)]); eexists; (split; [reflexivity|]); rewrite ?app_length, !repeat_length; (split; [lia|]).
  - eapply Forall_impl; [|apply R]. tauto.
  - apply Forall_app. split; (eapply Forall_impl; [|apply R]); tauto.
Qed.

(** C115: receipts come from the last reply, of one of the two providers to a call for the receipts of that block, which has a result; at most
    forty requests are made, all of this kind. *)
Theorem C115_receipts api n h h' o :
  usable env (primary api) -> usable env (fallback api) -> n < 2 ^ 64 ->
  get_receipts ask parse env receipts_dec api n h = (h', o) ->
  (exists k, h' = h ++ k /\ (length k <= 40)%nat /\ Forall (fun x => calls_at (primary api) "eth_getBlockReceipts" n [] x \/ calls_at (fallback api) "eth_getBlockReceipts" n [] x) k) /\
  o <> Panic /\
  (forall rs, o = Ok rs -> exists hp x j r, h' = hp ++ [x] /\ replies parse (ask hp x) j /\ result_of j r /\ r <> JNull /\ receipts_dec j = Some rs).
Proof.
  intros U V L. unfold get_receipts. pose (eight := 8%nat). change 40%nat with (eight * 5)%nat. assert (E8 : eight = 8%nat) by reflexivity. clearbody eight. generalize 5%nat. intros m. revert h. induction m as [|m IH]; intros h; cbn [receipts_rounds].
  - intros [= <- <-]. split; [exists []; rewrite app_nil_r; split; [reflexivity|]; split; [cbn; lia | constructor]|]. split; discriminate.
  - destruct (try_request ask parse env api (receipts_call n 1) h) as [h1 j] eqn:E.
    destruct (try_request_spec _ _ _ _ _ U V E) as (x & y & X1 & X2 & Y1 & Y2 & F). destruct (quantity_reads n L) as (s & Q & R).
    assert (CX : calls_at (primary api) "eth_getBlockReceipts" n [] x) by (split; [exact X1|]; eexists _, s; split; [exact X2|]; cbn [method params block_call receipts_call]; rewrite Q; auto).
    assert (CY : calls_at (fallback api) "eth_getBlockReceipts" n [] y) by (split; [exact Y1|]; eexists _, s; split; [exact Y2|]; cbn [method params block_call receipts_call]; rewrite Q; auto).
    destruct (at_most_eight _ _ _ _ _ _ F) as (k & -> & K & KF).
    assert (KG : Forall (fun x => calls_at (primary api) "eth_getBlockReceipts" n [] x \/ calls_at (fallback api) "eth_getBlockReceipts" n [] x) k).
    { eapply Forall_impl; [|exact KF]. intros z [->| ->]; auto. }
    assert (KD : exists k', h ++ k = h ++ k' /\ (length k' <= eight * S m)%nat /\ Forall (fun x => calls_at (primary api) "eth_getBlockReceipts" n [] x \/ calls_at (fallback api) "eth_getBlockReceipts" n [] x) k').
    { exists k. split; [reflexivity|]. split; [lia | exact KG]. }
    destruct j as [v| |].
    + destruct (get (lit "result") v) as [r|] eqn:G.
      * destruct (is_null r) eqn:NR.
        -- intros H. destruct (IH _ H) as ((k' & -> & K' & KF') & NP & IH3). split.
           { exists (k ++ k'). rewrite app_assoc, app_length. split; [reflexivity|]. split; [lia|]. apply Forall_app. auto. }
           split; [exact NP | exact IH3].
        -- intros [= <- <-]. split; [exact KD|]. split; [destruct (receipts_dec v); discriminate|]. intros rs O.
           destruct (last_exchange _ _ _ _ _ _ F) as (hp & z & Hz & _ & Dz & _). exists hp, z, v, r. split; [exact Hz|]. split; [exact Dz|]. apply get_result in G. split; [exact G|].
           split; [destruct r; discriminate|]. destruct (receipts_dec v); [injection O as <-; reflexivity | discriminate].
      * intros [= <- <-]. split; [exact KD|]. split; discriminate.
    + intros [= <- <-]. split; [exact KD|]. split; discriminate.
    + destruct (first_then_second_no_panic _ _ _ _ _ _ F eq_refl).
Qed.

Lemma try_request_first api q x p h r b j :
  client_new env (primary api) Json = Ok p -> x = post_request p (Post q) ->
  ask h x = Replied r -> transient (Replied r) = false -> body r = Some b -> parse b = Some j ->
  try_request ask parse env api q h = (h ++ [x], Ok j).
Proof.
  intros P -> A N B J. unfold try_request, try_with. rewrite P. unfold send_request, send. cbn [send_with]. rewrite A, N. unfold read_json. rewrite B, J. reflexivity.
Qed.
(** C115: a provider without the receipts for now, which says so, is asked again, up to five times in all. *)
Theorem C115_receipts_wait api n h k rs :
  usable env (primary api) -> (k < 5)%nat ->
  (forall hp x, to_url x = primary api -> length hp = (length h + k)%nat -> exists r b j v, ask hp x = Replied r /\ status r = 200 /\ body r = Some b /\ parse b = Some j /\ result_of j v /\ v <> JNull /\ receipts_dec j = Some rs) ->
  (forall hp x, to_url x = primary api -> (length hp < length h + k)%nat -> exists r b j, ask hp x = Replied r /\ status r = 200 /\ body r = Some b /\ parse b = Some j /\ result_of j JNull) ->
  snd (get_receipts ask parse env receipts_dec api n h) = Ok rs.
Proof.
  intros U K Good Null. destruct (usable_client _ _ Json U) as [p P]. unfold get_receipts.
  assert (T : forall r, status r = 200 -> transient (Replied r) = false) by (intros r St; unfold transient; rewrite St; reflexivity).
  revert h K Good Null. generalize 5%nat. intros m. revert k. induction m as [|m IH]; intros k h K Good Null; [lia|]. cbn [receipts_rounds].
  set (x := post_request p (Post (receipts_call n 1))).
  assert (X : to_url x = primary api) by (apply (client_url _ _ _ _ P)).
  destruct k as [|k].
  - destruct (Good h x X ltac:(lia)) as (r & b & j & v & A & St & B & J & R & NN & D).
    rewrite (try_request_first api _ x p h r b j P eq_refl A (T r St) B J). apply get_result in R. rewrite R.
    destruct v; try (destruct NN; reflexivity); cbn [is_null]; rewrite D; reflexivity.
  - destruct (Null h x X ltac:(lia)) as (r & b & j & A & St & B & J & R).
    rewrite (try_request_first api _ x p h r b j P eq_refl A (T r St) B J). apply get_result in R. rewrite R. cbn [is_null].
    apply (IH k (h ++ [x])); [lia| |]; intros hp z Z Lz; rewrite app_length in Lz; cbn in Lz; [apply (Good hp z Z) | apply (Null hp z Z)]; lia.
Qed.

Lemma try_batch_first api q x p h r b l :
  client_new env (primary api) Json = Ok p -> x = post_request p (PostAll q) ->
  ask h x = Replied r -> transient (Replied r) = false -> body r = Some b -> parse b = Some (JArr l) ->
  try_batch_request ask parse env api q h = (h ++ [x], Ok l).
Proof.
  intros P -> A N B J. unfold try_batch_request, try_with. rewrite P. unfold send_batch_request, send. cbn [send_with]. rewrite A, N. unfold read_json. rewrite B, J. reflexivity.
Qed.
Lemma assign_spec truth ns : forall m js, Forall2 (fun n j => receipts_dec j = Some (truth n)) ns js ->
  exists m', assign receipts_dec m ns js = Ok m' /\ forall n, (In n ns -> m' n = Some (truth n)) /\ (~ In n ns -> m' n = m n).
Proof.
  induction ns as [|n ns IH]; intros m js F; inversion F as [|? j ? t A B]; subst; cbn [assign].
  - exists m. split; [reflexivity|]. cbn. tauto.
  - rewrite A. destruct (IH (fun k => if k =? n then Some (truth n) else m k) t B) as (m' & -> & H). exists m'. split; [reflexivity|].
    intros k. destruct (H k) as [H1 H2]. destruct (in_dec N.eq_dec k ns) as [I|I].
    + split; [auto|]. cbn. tauto.
    + rewrite (H2 I). cbn. destruct (N.eqb_spec k n) as [->|N]; split; intros Q; try reflexivity; [destruct Q; auto|]. destruct Q as [->|Q]; [congruence | contradiction].
Qed.
Lemma batch_calls_length i ns : length (batch_calls i ns) = length ns.
Proof. unfold batch_calls. rewrite map_length, combine_length, map_length, seq_length. lia. Qed.
Lemma combine_snd {A} (f : N -> A -> call) s ns : length s = length ns -> Forall2 (fun c n => exists i, c = f i n) (map (fun p => f (fst p) (snd p)) (combine s ns)) ns.
Proof. revert s. induction ns as [|n ns IH]; intros [|a s]; cbn; try discriminate; [constructor|]. intros [= L]. constructor; [exists a; reflexivity | apply IH; exact L]. Qed.
Lemma batch_calls_spec i ns : Forall2 (fun c n => exists i, c = receipts_call n i) (batch_calls i ns) ns.
Proof.
  unfold batch_calls. pose proof (combine_snd (fun a n => receipts_call n ((i + a) mod 2 ^ 32)) (map N.of_nat (seq 0 (length ns))) ns) as H.
  rewrite map_length, seq_length in H. specialize (H eq_refl).
  set (l := combine _ _) in *. clearbody l. revert H. generalize (map (fun p : N * N => receipts_call (snd p) ((i + fst p) mod 2 ^ 32)) l). intros cs H.
  induction H as [|c n cs ns [a ->] F IH]; constructor; eauto.
Qed.

(** C115: receipts of many blocks are asked for in batches of at most ten, and a provider that answers every call of a batch at its place gives
    the receipts of each block. *)
Theorem C115_batches api ns h (truth : N -> list rct) :
  usable env (primary api) -> Forall (fun n => n < 2 ^ 64) ns ->
  (forall hp x l, to_url x = primary api -> sends x = PostAll l ->
     exists r b js, ask hp x = Replied r /\ status r = 200 /\ body r = Some b /\ parse b = Some (JArr js) /\
       Forall2 (fun c j => forall n s, params c = [JStr (lit "0x" ++ s)] -> reads 16 hex_val s n -> receipts_dec j = Some (truth n)) l js) ->
  exists h' m, get_receipts_range ask parse env receipts_dec api ns h = (h', Ok m) /\
    (forall n, (In n ns -> m n = Some (truth n)) /\ (~ In n ns -> m n = None)) /\
    exists xs ls, h' = h ++ xs /\ Forall2 (fun x l => to_url x = primary api /\ sends x = PostAll l /\ (length l <= 10)%nat) xs ls /\
      Forall2 (fun c n => method c = lit "eth_getBlockReceipts" /\ exists s, params c = [JStr (lit "0x" ++ s)] /\ reads 16 hex_val s n) (concat ls) ns.
Proof.
  intros U L Honest. destruct (usable_client _ _ Json U) as [p P]. unfold get_receipts_range.
  assert (G : forall fuel m0 i ns h, Forall (fun n => n < 2 ^ 64) ns -> (length ns <= fuel)%nat ->
    exists h' m, range_from ask parse env receipts_dec fuel api m0 i ns h = (h', Ok m) /\ (forall n, (In n ns -> m n = Some (truth n)) /\ (~ In n ns -> m n = m0 n)) /\
    exists xs ls, h' = h ++ xs /\ Forall2 (fun x l => to_url x = primary api /\ sends x = PostAll l /\ (length l <= 10)%nat) xs ls /\
      Forall2 (fun c n => method c = lit "eth_getBlockReceipts" /\ exists s, params c = [JStr (lit "0x" ++ s)] /\ reads 16 hex_val s n) (concat ls) ns).
  { clear ns h L. induction fuel as [|fuel IH]; intros m0 i ns h L F.
    - assert (ns = []) by (destruct ns; [reflexivity | cbn in F; lia]). subst. exists h, m0. split; [reflexivity|]. split; [cbn; tauto|]. exists [], []. rewrite app_nil_r. cbn. auto.
    - destruct ns as [|n0 ns0]; [exists h, m0; split; [reflexivity|]; split; [cbn; tauto|]; exists [], []; rewrite app_nil_r; cbn; auto|].
      set (ns := n0 :: ns0) in *. cbn [range_from]. change (n0 :: ns0) with ns.
      change (match ns with [] => (h, Ok m0) | _ :: _ => ?e end) with e.
      set (batch := firstn BATCH_LIMIT ns). set (x := post_request p (PostAll (batch_calls i batch))).
      assert (X : to_url x = primary api) by (apply (client_url _ _ _ _ P)).
      destruct (Honest h x (batch_calls i batch) X eq_refl) as (r & b & js & A & St & B & J & HF).
      rewrite (try_batch_first api _ x p h r b js P eq_refl A ltac:(unfold transient; rewrite St; reflexivity) B J).
      assert (Lb : Forall (fun n => n < 2 ^ 64) batch) by (rewrite <- (firstn_skipn BATCH_LIMIT ns) in L; apply Forall_app in L; apply L).
      assert (Ls : Forall (fun n => n < 2 ^ 64) (skipn BATCH_LIMIT ns)) by (rewrite <- (firstn_skipn BATCH_LIMIT ns) in L; apply Forall_app in L; apply L).
      assert (W : Forall2 (fun n j => receipts_dec j = Some (truth n)) batch js).
      { pose proof (batch_calls_spec i batch) as BC. revert js HF B J A. generalize (batch_calls i batch) BC. clear -Lb. intros cs BC js HF _ _ _. revert js HF.
        induction BC as [|c n cs ms [a ->] BC IH]; intros js HF; inversion HF as [|? j ? t H1 H2]; subst; constructor.
        - inversion Lb; subst. destruct (quantity_reads n H3) as (s & Q & R). apply (H1 n s); [cbn [params receipts_call]; rewrite Q; reflexivity | exact R].
        - apply IH; [inversion Lb; assumption | exact H2]. }
      destruct (assign_spec truth batch m0 js W) as (m1 & -> & H1).
      destruct (IH m1 (i + N.of_nat BATCH_LIMIT) (skipn BATCH_LIMIT ns) (h ++ [x]) Ls) as (h' & m & E & H2 & xs & ls & -> & X1 & X2).
      { rewrite skipn_length. subst ns. cbn [length] in *. unfold BATCH_LIMIT. lia. }
      exists ((h ++ [x]) ++ xs), m. split; [exact E|]. split.
      + intros n. destruct (H2 n) as [H3 H4], (H1 n) as [H5 H6]. rewrite <- (firstn_skipn BATCH_LIMIT ns), in_app_iff. fold batch.
        destruct (in_dec N.eq_dec n (skipn BATCH_LIMIT ns)) as [I|I].
        * split; [auto|]. tauto.
        * rewrite (H4 I). tauto.
      + exists (x :: xs), (batch_calls i batch :: ls). rewrite <- app_assoc. split; [reflexivity|]. split.
        * constructor; [|exact X1]. split; [exact X|]. split; [reflexivity|]. rewrite batch_calls_length. unfold batch. rewrite firstn_length. unfold BATCH_LIMIT. lia.
        * cbn [concat]. rewrite <- (firstn_skipn BATCH_LIMIT ns). apply Forall2_app; [|exact X2]. fold batch. pose proof (batch_calls_spec i batch) as BC. revert Lb. generalize BC. generalize (batch_calls i batch). clear. intros cs BC Lb.
          induction BC as [|c n cs ms [a ->] BC IH]; constructor; [|apply IH; inversion Lb; assumption]. split; [reflexivity|]. inversion Lb; subst.
          destruct (quantity_reads n H1) as (s & Q & R). exists s. cbn [params receipts_call]. rewrite Q. auto. }
  apply (G (length ns) (fun _ => None) 0 ns h L). lia.
Qed.
End Execution.

(** C115: both interfaces start whatever the providers answer, if their URLs have hosts. *)
Theorem C115_start {V} ask parse env (ssz_dec : bytes -> option V) json_dec p f h :
  usable env p -> usable env f ->
  (exists h' a b, consensus_new ask parse env ssz_dec json_dec p f h = (h', Ok (a, b)) /\ base_url a = p /\ base_url b = f) /\
  (exists h' a, execution_new ask parse env p f h = (h', Ok a) /\ primary a = p /\ fallback a = f).
Proof.
  intros P F. destruct (usable_client _ _ Ssz P) as [a A], (usable_client _ _ Ssz F) as [b B], (usable_client _ _ Json P) as [c C]. split.
  - unfold consensus_new. rewrite A, B. destruct (request_no_fallback _ _ _ _ _ _ _) as [h1 ?]. destruct (request_no_fallback _ _ _ _ _ _ _) as [h2 ?].
    exists h2, a, b. split; [reflexivity|]. split; [apply (client_url _ _ _ _ A) | apply (client_url _ _ _ _ B)].
  - unfold execution_new. rewrite C. destruct (send_request _ _ _ _ _) as [h1 ?]. eexists h1, _. split; [reflexivity|]. split; reflexivity.
Qed.

(** C115: the secrets of the environment are sent exactly to the hosts with "pandaops.io" in their name; nothing of the environment is sent to others. *)
Theorem C115_secrets env u k c : client_new env u k = Ok c ->
  exists h, host u = Some h /\
    (occurs (lit "pandaops.io") h -> forall v,
       (In (lit "cf-access-client-id", v) (default_headers c) <-> v = match env (lit "PANDAOPS_CLIENT_ID") with Some v => v | None => lit "null" end) /\
       (In (lit "cf-access-client-secret", v) (default_headers c) <-> v = match env (lit "PANDAOPS_CLIENT_SECRET") with Some v => v | None => lit "null" end)) /\
    (~ occurs (lit "pandaops.io") h -> default_headers c = match k with
       | Json => [(lit "content-type", lit "application/json")]
       | Ssz => [(lit "content-type", lit "application/octet-stream"); (lit "accept", lit "application/octet-stream;q=1.0,application/json;q=0.9")] end).
Proof.
  unfold client_new, get_authorization_headers. destruct (host u) as [h|]; [|discriminate]. destruct (contains_text (lit "pandaops.io") h) eqn:C.
  - apply contains_text_spec in C.
    generalize (match env (lit "PANDAOPS_CLIENT_ID") with Some v => v | None => lit "null" end). intros i.
    generalize (match env (lit "PANDAOPS_CLIENT_SECRET") with Some v => v | None => lit "null" end). intros s.
    destruct (header_value i); cbn [negb]; [|discriminate]. destruct (header_value s); cbn [negb]; [|discriminate]. intros H. exists h. split; [reflexivity|]. split; [|tauto].
    intros _ v.
    assert (G : default_headers c = match k with
       | Json => [(lit "content-type", JSON_CONTENT_TYPE); (lit "cf-access-client-id", i); (lit "cf-access-client-secret", s)]
       | Ssz => [(lit "content-type", SSZ_CONTENT_TYPE); (lit "accept", ACCEPT_PRIORITY); (lit "cf-access-client-id", i); (lit "cf-access-client-secret", s)] end).
    { destruct k; cbn [omap] in H; apply (f_equal (fun o => match o with Ok c => default_headers c | _ => [] end)) in H; cbn [default_headers] in H; rewrite <- H; reflexivity. }
    rewrite G. destruct k; cbn [In]; split; split; intros Q; subst; auto 6;
      repeat (destruct Q as [Q|Q]; [apply pair_equal_spec in Q as [Q1 Q2]; first [discriminate Q1 | symmetry; exact Q2] |]); destruct Q.
  - intros H. exists h. split; [reflexivity|]. split.
    + intros O. apply contains_text_spec in O. congruence.
    + intros _. cbn [omap fold_left] in H. apply (f_equal (fun o => match o with Ok c => default_headers c | _ => [] end)) in H. cbn [default_headers] in H. rewrite <- H. reflexivity.
Qed.

(** C115, the events: all those of the four kinds that can be read come out, in their order; comments, errors and others do not end it. *)
Theorem C115_events {Ch He Li Fi} (rr : bytes -> option Ch) (rh : bytes -> option He) (rl : bytes -> option Li) (rf : bytes -> option Fi) before after e kind data :
  (e = match rr data with Some x => Some (ChainReorg x) | None => None end /\ kind = lit "chain_reorg"
   \/ e = match rh data with Some x => Some (Head x) | None => None end /\ kind = lit "head"
   \/ e = match rl data with Some x => Some (LightClientOptimisticUpdate x) | None => None end /\ kind = lit "light_client_optimistic_update"
   \/ e = match rf data with Some x => Some (FinalizedCheckpoint x) | None => None end /\ kind = lit "finalized_checkpoint"
   \/ e = None /\ ~ In kind [lit "chain_reorg"; lit "head"; lit "light_client_optimistic_update"; lit "finalized_checkpoint"]) ->
  let out := events rr rh rl rf in
  out (before ++ Event kind data :: after) = out before ++ match e with Some x => [x] | None => [] end ++ out after /\
  out (before ++ StreamError :: after) = out before ++ out after /\
  out (before ++ Connected :: after) = out before ++ out after /\
  (forall c, out (before ++ Comment c :: after) = out before ++ out after) /\ out [] = [].
Proof.
  intros H out.
  assert (App : forall a b, out (a ++ b) = out a ++ out b).
  { induction a as [|x a IH]; intros b; [reflexivity|]. destruct x as [k d| |c|]; subst out; cbn [events app]; try apply IH. destruct (read_event rr rh rl rf k d); [cbn; f_equal|]; apply IH. }
  rewrite !App. split; [|split; [reflexivity|split; [reflexivity|split; [intros c; rewrite App; reflexivity | reflexivity]]]].
  f_equal. subst out. cbn [events].
  assert (R : read_event rr rh rl rf kind data = e).
  { unfold read_event. destruct H as [[-> ->]|[[-> ->]|[[-> ->]|[[-> ->]|[-> N]]]]]; try reflexivity.
    cbn [In] in N.
    destruct (beqb kind (lit "chain_reorg")) eqn:B1; [apply beqb_spec in B1; destruct N; auto|].
    destruct (beqb kind (lit "head")) eqn:B2; [apply beqb_spec in B2; destruct N; auto|].
    destruct (beqb kind (lit "light_client_optimistic_update")) eqn:B3; [apply beqb_spec in B3; destruct N; auto|].
    destruct (beqb kind (lit "finalized_checkpoint")) eqn:B4; [apply beqb_spec in B4; destruct N; auto 6|]. reflexivity. }
  rewrite R. destruct e; reflexivity.
Qed.

(** ** What is false *)
Section Refuted.
Variables (ask : list exchange -> exchange -> sent) (parse : bytes -> option json) (env : bytes -> option bytes).

(** C115 fails for a provider that names the character set of its JSON, "application/json; charset=utf-8", as it may: whatever it sends is no answer. *)
Theorem C115_charset_refuted {T} (ssz_dec : bytes -> option T) (json_dec : json -> option T) primary fallback q h more :
  more <> [] ->
  (forall hp x, exists r, ask hp x = Replied r /\ content_type r = Some (lit "application/json" ++ more)) ->
  snd (beacon_get ask parse ssz_dec json_dec primary fallback q h) = Err.
Proof.
  intros M A. destruct (beacon_get ask parse ssz_dec json_dec primary fallback q h) as [h' o] eqn:E. cbn [snd].
  destruct (C115_beacon _ _ _ _ _ _ _ _ _ _ E) as (x & y & _ & _ & _ & _ & n & r & (_ & T1 & _) & F).
  assert (N : forall hp z d, ~ exists v, delivers parse ssz_dec json_dec (ask hp z) (v, d)).
  { intros hp z d [v D]. destruct (A hp z) as (s & As & C). rewrite As in D. inversion D as [? ? ? C1|? ? ? ? ? C1]; subst; rewrite C in C1.
    - discriminate C1.
    - injection C1 as C1. exact (M C1). }
  destruct F as [(a & Da & _)|(_ & m & s & (_ & T2 & _) & _ & [(a & Da & _)|(_ & ->)])]; [subst r; destruct (N _ _ _ Da) | subst s; destruct (N _ _ _ Da) | reflexivity].
Qed.

(** C115 fails for providers of beacon data under a path: the path, which may hold the key of the user, is left out of every request. *)
Theorem C115_path_refuted env' u u' k c c' e : scheme u = scheme u' -> host u = host u' -> port u = port u' -> e <> [] ->
  client_new env' u k = Ok c -> client_new env' u' k = Ok c' -> get_request c e = get_request c' e.
Proof.
  intros S H P NE A B. unfold get_request, join. rewrite (client_url _ _ _ _ A), (client_url _ _ _ _ B), S, H, P.
  assert (D : default_headers c = default_headers c').
  { unfold client_new, get_authorization_headers in A, B. rewrite H in A. destruct (host u') as [h|]; [|discriminate].
    destruct (contains_text _ h); [|cbn in A, B; injection A as <-; injection B as <-; reflexivity].
    destruct (negb _); [discriminate|]. destruct (negb _); [discriminate|]. cbn [omap] in A, B. injection A as <-. injection B as <-. reflexivity. }
  rewrite D. destruct e; [congruence | reflexivity].
Qed.

Context {tx rct wdl : Type} (paris : N -> bool).
Variables (block_dec : json -> option (@rpc_block tx wdl)) (receipts_dec : json -> option (list rct)).

(** C115 fails if the first provider replies with an error in JSON, as for too many requests: the second is not asked, and the receipts not asked for again. *)
Theorem C115_error_refuted api h height n c r b j :
  client_new env (primary api) Json = Ok c ->
  (forall x, ask h x = Replied r) -> status r = 200 -> body r = Some b -> parse b = Some j -> (forall v, ~ result_of j v) ->
  exists x y, get_block ask parse env paris block_dec api height h = (h ++ [x], Err) /\ to_url x = primary api /\
              get_receipts ask parse env receipts_dec api n h = (h ++ [y], Err) /\ to_url y = primary api.
Proof.
  intros C A St B J N.
  assert (T : transient (Replied r) = false) by (unfold transient; rewrite St; reflexivity).
  assert (G : get (lit "result") j = None) by (destruct (get (lit "result") j) as [v|] eqn:G; [apply get_result in G; destruct (N v G) | reflexivity]).
  exists (post_request c (Post (block_call height))), (post_request c (Post (receipts_call n 1))). split; [|split; [|split]].
  - unfold get_block. rewrite (try_request_first ask parse env api _ _ c h r b j C eq_refl (A _) T B J). cbn [obind]. rewrite G. reflexivity.
  - apply (client_url _ _ _ _ C).
  - unfold get_receipts. cbn [receipts_rounds]. rewrite (try_request_first ask parse env api _ _ c h r b j C eq_refl (A _) T B J), G. reflexivity.
  - apply (client_url _ _ _ _ C).
Qed.

(** C115 fails for the height: any block after the merge is taken for the one that was asked for, and one with the hashes of its transactions
    only is taken for a block without transactions. *)
Theorem C115_height_refuted api h height c r b j v blk :
  client_new env (primary api) Json = Ok c ->
  (forall x, ask h x = Replied r) -> status r = 200 -> body r = Some b -> parse b = Some j -> result_of j v -> block_dec v = Some blk -> paris (number (rpc_header blk)) = true ->
  exists body, snd (get_block ask parse env paris block_dec api height h) = Ok (rpc_header blk, body) /\
    (forall l, rpc_txs blk = Hashes l -> transactions body = []).
Proof.
  intros C A St B J R D P.
  assert (T : transient (Replied r) = false) by (unfold transient; rewrite St; reflexivity). apply get_result in R.
  unfold get_block. rewrite (try_request_first ask parse env api _ _ c h r b j C eq_refl (A _) T B J). cbn [obind snd]. rewrite R, D, P. cbn [negb].
  eexists. split; [reflexivity|]. intros l E. cbn. rewrite E. reflexivity.
Qed.

(** C115 fails if the answers to a batch come in another order, as they may: with the names of the calls in them, they are given to the wrong blocks. *)
Theorem C115_order_refuted api h c a b r t ja jb ra rb :
  client_new env (primary api) Json = Ok c -> a <> b ->
  (forall x, ask h x = Replied r) -> status r = 200 -> body r = Some t -> parse t = Some (JArr [jb; ja]) ->
  get (lit "id") ja = Some (JNum 0) -> get (lit "id") jb = Some (JNum 1) -> receipts_dec ja = Some ra -> receipts_dec jb = Some rb ->
  exists m x ca cb, get_receipts_range ask parse env receipts_dec api [a; b] h = (h ++ [x], Ok m) /\ sends x = PostAll [ca; cb] /\ id ca = 0 /\ id cb = 1 /\
    params ca = [JStr (quantity a)] /\ params cb = [JStr (quantity b)] /\ m a = Some rb /\ m b = Some ra.
Proof.
  intros C NE A St B J Ia Ib Ra Rb.
  assert (T : transient (Replied r) = false) by (unfold transient; rewrite St; reflexivity).
  unfold get_receipts_range. cbn [length range_from firstn BATCH_LIMIT skipn].
  rewrite (try_batch_first ask parse env api _ _ c h r t [jb; ja] C eq_refl (A _) T B J). cbn [assign]. rewrite Rb, Ra.
  eexists _, _, (receipts_call a 0), (receipts_call b 1). split; [reflexivity|]. cbn [sends post_request]. split; [reflexivity|]. repeat split; try reflexivity.
  - destruct (N.eqb_spec a b); [contradiction|]. rewrite N.eqb_refl. reflexivity.
  - rewrite N.eqb_refl. reflexivity.
Qed.
End Refuted.

(** C115 fails for the secrets: they are sent to every host with the name in its own, whoever it belongs to, over HTTP too. *)
Theorem C115_secrets_refuted env u a b s i k :
  host u = Some (a ++ lit "pandaops.io" ++ b) -> env (lit "PANDAOPS_CLIENT_SECRET") = Some s -> env (lit "PANDAOPS_CLIENT_ID") = Some i ->
  header_value s = true -> header_value i = true ->
  exists c, client_new env u k = Ok c /\ forall e p, In (lit "cf-access-client-secret", s) (headers (get_request c e)) /\ In (lit "cf-access-client-secret", s) (headers (post_request c p)) /\
    host (to_url (get_request c e)) = host u.
Proof.
  intros H S I Vs Vi.
  assert (O : occurs (lit "pandaops.io") (a ++ lit "pandaops.io" ++ b)) by (exists a, b; reflexivity).
  assert (C : exists c, client_new env u k = Ok c).
  { unfold client_new, get_authorization_headers. rewrite H, (proj2 (contains_text_spec _ _) O), S, I, Vs, Vi. cbn. eauto. }
  destruct C as [c C]. exists c. split; [exact C|]. intros e p. destruct (C115_secrets _ _ _ _ C) as (h & H' & P & _). rewrite H in H'. injection H' as <-.
  destruct (P O s) as [_ Q]. rewrite S in Q.
  assert (In (lit "cf-access-client-secret", s) (default_headers c)) by (apply Q; reflexivity).
  split; [assumption|]. split; [assumption|]. cbn. rewrite <- (client_url _ _ _ _ C). unfold join. destruct e; reflexivity.
Qed.

Print Assumptions C115_beacon.
Print Assumptions C115_updates.
Print Assumptions C115_endpoints.
Print Assumptions C115_block.
Print Assumptions C115_body.
Print Assumptions C115_latest.
Print Assumptions C115_receipts.
Print Assumptions C115_receipts_wait.
Print Assumptions C115_batches.
Print Assumptions C115_start.
Print Assumptions C115_secrets.
Print Assumptions C115_events.
Print Assumptions C115_charset_refuted.
Print Assumptions C115_path_refuted.
Print Assumptions C115_error_refuted.
Print Assumptions C115_height_refuted.
Print Assumptions C115_order_refuted.
Print Assumptions C115_secrets_refuted.

(** ** An example: a first provider that is down, then busy, and a second that answers *)
Definition ex_url (h p : string) : url := {| scheme := lit "https"; host := Some (lit h); port := None; path := lit p; query := None |}.
Definition ex_env (n : bytes) : option bytes := if beqb n (lit "PANDAOPS_CLIENT_SECRET") then Some (lit "hush") else None.
Definition ex_ask (h : list exchange) (x : exchange) : sent :=
  match host (to_url x) with
  | Some n =>
      if beqb n (lit "one.example") then
        if (length h <? 2)%nat then Failed true else Replied {| status := 503; content_type := Some (lit "text/html"); consensus_version := None; body := Some [] |}
      else Replied {| status := 200; content_type := Some (lit "application/octet-stream"); consensus_version := Some (lit "electra"); body := Some [7] |}
  | None => Failed false
  end.
Definition ex_client (h : string) : client := match client_new ex_env (ex_url h "/key/") Ssz with Ok c => c | _ => {| base_url := ex_url h ""; default_headers := [] |} end.
Definition ex_ssz (b : bytes) : option N := match b with [n] => Some n | _ => None end.
(** After four requests at the first, one at the second *)
Example C115_example :
  let r := beacon_get ex_ask (fun _ => None) ex_ssz (fun _ => None) (ex_client "one.example") (ex_client "two.example") (BeaconBlock (lit "finalized")) [] in
  snd r = Ok 7 /\ map (fun x => (host (to_url x), path (to_url x))) (fst r) =
    repeat (Some (lit "one.example"), lit "/eth/v2/beacon/blocks/finalized") 4 ++ [(Some (lit "two.example"), lit "/eth/v2/beacon/blocks/finalized")].
Proof. vm_compute. auto. Qed.
(** The secret goes to a host that is not of the operator. *)
Example C115_evil :
  In (lit "cf-access-client-secret", lit "hush") (default_headers (ex_client "ethpandaops.io.evil.example")) /\ ~ host_of_operator (lit "ethpandaops.io.evil.example").
Proof.
  split; [right; right; right; left; reflexivity|].
  intros [E|[a E]]; [discriminate E|]. apply (f_equal (fun l => hd 0 (rev l))) in E. rewrite rev_app_distr in E. discriminate E.
Qed.
(** Numbers as they are sent, and a URL that can be used *)
Example C115_quantity : quantity 15537394 = lit "0xED14F2" /\ quantity 0 = lit "0x0" /\ decimal 1050 = lit "1050" /\ usable ex_env (ex_url "one.example" "").
Proof.
  split; [reflexivity|]. split; [reflexivity|]. split; [reflexivity|]. exists (lit "one.example"). split; [reflexivity|]. intros O. apply contains_text_spec in O. discriminate O.
Qed.
