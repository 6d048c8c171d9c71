(** C107: the identity of a node, its directories and its checkpoint, across restarts and crashes. *)
From Coq Require Import String Ascii.
From Verif Require Import Base Hex_Model Hex_Spec Hex_Proofs Args_Model Identity_Model Identity_Spec.

(** ** The directory for all data *)
(** With --ephemeral it is a new one; otherwise it is the one given, with the flag or in the environment, or else that of the
    operating system.  Both together are refused. *)
Theorem C107_data_dir : forall temp default random env flag ephemeral d,
  configure_trin_data_dir temp default random env flag ephemeral = Ok d <->
  ~ (env <> None /\ flag <> None) /\
  ((ephemeral = true /\ exists root, d = root ++ [lit "trin"; random] /\
      (flag = Some root \/ env = Some root \/ (flag = None /\ env = None /\ root = temp))) \/
   (ephemeral = false /\ (flag = Some d \/ env = Some d \/ (flag = None /\ env = None /\ default = Some d)))).
Proof.
  intros temp default random env flag e d. unfold configure_trin_data_dir, setup_data_dir. change app_name with (lit "trin"). split.
  - destruct flag as [f|], env as [v|], e; try discriminate.
    all: try (intros [= <-]).
    all: try (split; [intros [A B]; congruence|]; solve [left; split; [reflexivity|]; eexists; split; [reflexivity|]; auto | right; auto]).
    destruct default as [x|]; [|discriminate]. intros [= <-]. split; [intros [A B]; congruence|]. right. auto 6.
  - intros [N [(-> & r & -> & [-> | [-> | (-> & -> & ->)]]) | (-> & [-> | [-> | (-> & -> & ->)]])]].
    + destruct env; [|reflexivity]. exfalso. apply N. split; discriminate.
    + destruct flag; [|reflexivity]. exfalso. apply N. split; discriminate.
    + reflexivity.
    + destruct env; [|reflexivity]. exfalso. apply N. split; discriminate.
    + destruct flag; [|reflexivity]. exfalso. apply N. split; discriminate.
    + reflexivity.
Qed.

Section Node.
Context (parse : bytes -> option bytes) (node_id : bytes -> bytes).
Notation step := (step parse node_id). Notation run := (run parse node_id).
Notation read_key := (read_key parse).

Lemma step_file d s f : key_file d = Some f -> key_file (fst (step d s)) = Some f.
Proof.
  intros E. unfold Identity_Model.step, configure_node_data_dir, get_application_private_key. rewrite E.
  destruct (given s) as [k|]; [destruct (parse k), (stops s); cbn; first [exact E|reflexivity]|].
  destruct (read_key f), (stops s); reflexivity.
Qed.
Lemma run_file l : forall d f, key_file d = Some f -> key_file (fst (run d l)) = Some f.
Proof.
  induction l as [|s l IH]; intros d f E; [exact E|]. cbn. destruct (step d s) as [d1 r] eqn:Es. pose proof (step_file d s f E) as E1.
  rewrite Es in E1. specialize (IH d1 f E1). destruct (run d1 l). exact IH.
Qed.
Lemma run_app l1 : forall d l2, run d (l1 ++ l2) = (fst (run (fst (run d l1)) l2), snd (run d l1) ++ snd (run (fst (run d l1)) l2)).
Proof.
  induction l1 as [|s l IH]; intros d l2; [cbn; destruct (run d l2); reflexivity|]. cbn. destruct (step d s) as [d1 r]. rewrite IH.
  destruct (run d1 l) as [d2 rs]. cbn. reflexivity.
Qed.
Lemma run_length l : forall d, length (snd (run d l)) = length l.
Proof. induction l as [|s l IH]; intros d; [reflexivity|]. cbn. destruct (step d s) as [d1 r]. specialize (IH d1). destruct (run d1 l). cbn in *. lia. Qed.

Lemma run_head d s l : nth_error (snd (run d (s :: l))) 0 = Some (snd (step d s)).
Proof. cbn. destruct (step d s) as [d1 r]. destruct (run d1 l). reflexivity. Qed.

(** What a start without a key of its own does when there is a file *)
Lemma step_with d s f : key_file d = Some f -> given s = None ->
  snd (step d s) = match read_key f with
                   | Ok k => match stops s with Never => Started (node_dir (on s) (node_id k)) k | _ => Stopped end
                   | _ => Refused
                   end.
Proof.
  intros E G. unfold Identity_Model.step, configure_node_data_dir, get_application_private_key. rewrite E, G.
  destruct (read_key f), (stops s); reflexivity.
Qed.
(** A start without a key leaves a file if it gets as far as to run or to be refused *)
Lemma step_leaves d s : given s = None -> snd (step d s) <> Stopped ->
  exists f, key_file (fst (step d s)) = Some f /\
    snd (step d s) = match read_key f with Ok k => Started (node_dir (on s) (node_id k)) k | _ => Refused end.
Proof.
  intros G. unfold Identity_Model.step, configure_node_data_dir, get_application_private_key. rewrite G. destruct (key_file d) as [f|] eqn:E.
  - intros H. exists f. destruct (read_key f), (stops s); cbn in *; try (exfalso; apply H; reflexivity); auto.
  - destruct (stops s); cbn -[Identity_Model.read_key hex_encode]; try (intros H; exfalso; apply H; reflexivity).
    intros _. exists (hex_encode (fresh s)). destruct (read_key (hex_encode (fresh s))); auto.
Qed.

(** *** A node keeps its identity *)
(** Whatever happens in a directory (starts on any network, with or without keys given, stopping anywhere, even while the
    key is written): if a start without a key of its own has run with a key, all later ones run with that key, unless they stop. *)
Theorem C107_identity : forall d l s l' s' k,
  ran_with s (snd (step (fst (run d l)) s)) k -> given s' = None ->
  let d' := fst (run d (l ++ [s] ++ l')) in
  snd (step d' s') = match stops s' with Never => Started (node_dir (on s') (node_id k)) k | _ => Stopped end.
Proof.
  intros d l s l' s' k [G (dir & R)] G'. cbn zeta. set (d1 := fst (run d l)) in *.
  assert (NS : snd (step d1 s) <> Stopped) by (rewrite R; discriminate). destruct (step_leaves d1 s G NS) as (f & Ef & Es).
  assert (Ek : read_key f = Ok k). { rewrite R in Es. destruct (read_key f); try discriminate. congruence. }
  assert (Ed : key_file (fst (run d (l ++ [s] ++ l'))) = Some f).
  { rewrite run_app. cbn [fst]. fold d1. change ([s] ++ l') with (s :: l'). cbn [Identity_Model.run]. destruct (step d1 s) as [d2 r2] eqn:E2. cbn in Ef. pose proof (run_file l' d2 f Ef) as X.
    destruct (run d2 l'). exact X. }
  rewrite (step_with _ _ f Ed G'), Ek. reflexivity.
Qed.
(** Hence no two of them run with different keys. *)
Theorem C107_one_identity : forall d l i j s s' r r' k k',
  nth_error l i = Some s -> nth_error l j = Some s' -> nth_error (snd (run d l)) i = Some r -> nth_error (snd (run d l)) j = Some r' ->
  ran_with s r k -> ran_with s' r' k' -> k = k'.
Proof.
  assert (W : forall d l i j s s' r r' k k', (i < j)%nat ->
    nth_error l i = Some s -> nth_error l j = Some s' -> nth_error (snd (run d l)) i = Some r -> nth_error (snd (run d l)) j = Some r' ->
    ran_with s r k -> ran_with s' r' k' -> k = k').
  { intros d l i j s s' r r' k k' Lt Si Sj Ri Rj H H'.
    apply nth_error_split in Sj as (l1 & l2 & -> & Lj). apply nth_error_split in Si as (a & b & Eab & La).
    assert (exists b', l1 = a ++ s :: b') as [b' ->].
    { assert (X : firstn j (l1 ++ s' :: l2) = firstn j (a ++ s :: b)) by (rewrite Eab; reflexivity). rewrite firstn_app, <- Lj, Nat.sub_diag, firstn_O, app_nil_r, firstn_all in X.
      rewrite X, firstn_app, firstn_all2 by lia. destruct (length l1 - length a)%nat eqn:E; [lia|]. cbn. eauto. }
    clear Eab b. rewrite !app_length in Lj. cbn in Lj.
    assert (X1 : r = snd (step (fst (run d a)) s)).
    { rewrite <- app_assoc, run_app in Ri. cbn [snd] in Ri. rewrite nth_error_app2 in Ri by (rewrite run_length; lia). rewrite run_length, La, Nat.sub_diag in Ri.
      cbn [app] in Ri. rewrite run_head in Ri. congruence. }
    assert (X2 : r' = snd (step (fst (run d (a ++ [s] ++ b'))) s')).
    { rewrite run_app in Rj. cbn [snd] in Rj. rewrite nth_error_app2 in Rj by (rewrite run_length, app_length; cbn; lia).
      rewrite run_length, app_length in Rj. cbn [length] in Rj. replace (j - _)%nat with 0%nat in Rj by lia. cbn [app]. set (D := fst (run d (a ++ s :: b'))) in *.
      rewrite run_head in Rj. congruence. }
    subst r r'. pose proof (C107_identity d a s b' s' k H (proj1 H')) as Q. cbn zeta in Q. destruct H' as [G' (dir' & E')].
    rewrite Q in E'. destruct (stops s'); congruence. }
  intros d l i j s s' r r' k k' Si Sj Ri Rj H H'. destruct (Nat.lt_total i j) as [L | [-> | L]].
  - exact (W _ _ _ _ _ _ _ _ _ _ L Si Sj Ri Rj H H').
  - rewrite Si in Sj. rewrite Ri in Rj. injection Sj as <-. injection Rj as <-. destruct H as [_ (a & A)], H' as [_ (b & B)]. congruence.
  - symmetry. exact (W _ _ _ _ _ _ _ _ _ _ L Sj Si Rj Ri H' H).
Qed.

(** The first start without a key generates one, and runs with it. *)
Theorem C107_generated : forall d s k, key_file d = None -> given s = None -> stops s = Never -> bytes_ok (fresh s) -> parse (fresh s) = Some k ->
  snd (step d s) = Started (node_dir (on s) (node_id k)) k.
Proof.
  intros d s k E G T B P. unfold Identity_Model.step, configure_node_data_dir, get_application_private_key, Identity_Model.read_key. rewrite E, G, T.
  rewrite (proj1 (hex_round_trip _ B)). cbn [obind]. rewrite P. reflexivity.
Qed.

(** A key that is given is the one that is used, and the file is left alone. *)
Theorem C107_given : forall d s x, given s = Some x ->
  key_file (fst (step d s)) = key_file d /\
  forall dir k, snd (step d s) = Started dir k <-> stops s = Never /\ parse x = Some k /\ dir = node_dir (on s) (node_id k).
Proof.
  intros d s x G. unfold Identity_Model.step, configure_node_data_dir. rewrite G. split; [destruct (parse x), (stops s); reflexivity|]. intros dir k.
  destruct (parse x) as [y|]; cbn.
  - destruct (stops s); cbn; (split; [try discriminate; intros [= <- <-]; auto|]). all: intros (A & B & C); try discriminate. congruence.
  - split; [discriminate|]. intros (_ & A & _). discriminate.
Qed.

(** *** Directories *)
(** A node that runs has its directory, and no directory is ever removed. *)
Theorem C107_directories : forall d s,
  (forall x, In x (dirs d) -> In x (dirs (fst (step d s)))) /\
  (forall dir k, snd (step d s) = Started dir k -> dir = node_dir (on s) (node_id k) /\ In dir (dirs (fst (step d s)))) /\
  (NoDup (dirs d) -> NoDup (dirs (fst (step d s)))).
Proof.
  assert (M : forall x l, In x (mkdir x l)).
  { intros x l. unfold mkdir. destruct (existsb (beqb x) l) eqn:E; [|apply in_or_app; right; left; reflexivity].
    apply existsb_exists in E as (y & Hy & Ey). apply beqb_spec in Ey. subst. exact Hy. }
  assert (K : forall x y l, In y l -> In y (mkdir x l)). { intros x y l H. unfold mkdir. destruct (existsb (beqb x) l); [exact H|]. apply in_or_app. auto. }
  assert (D : forall x l, NoDup l -> NoDup (mkdir x l)).
  { intros x l H. unfold mkdir. destruct (existsb (beqb x) l) eqn:E; [exact H|]. apply (Permutation_NoDup (l := x :: l)); [apply Permutation_cons_append|].
    constructor; [|exact H]. intros Hx. assert (X : existsb (beqb x) l = true) by (apply existsb_exists; exists x; split; [exact Hx|apply beqb_refl]). congruence. }
  intros d s. unfold Identity_Model.step, configure_node_data_dir.
  destruct (match given s with Some k => _ | None => _ end) as [file [[k| |]|]]; try (split; [auto|split; [discriminate|auto]]).
  destruct (stops s); cbn [fst snd dirs]; try (split; [auto|split; [discriminate|auto]]).
  split; [intros x; apply K|]. split; [|apply D]. intros dir k' [= <- <-]. split; [reflexivity|apply M].
Qed.

Lemma hex_chars_inj : forall a b, bytes_ok a -> bytes_ok b -> hex_chars hex_digit a = hex_chars hex_digit b -> a = b.
Proof.
  intros a b A B E. pose proof (proj1 (hex_round_trip a A)) as X. pose proof (proj1 (hex_round_trip b B)) as Y. unfold hex_encode in *. rewrite E in X. congruence.
Qed.
Lemma hex_chars_firstn n : forall a, firstn (2 * n) (hex_chars hex_digit a) = hex_chars hex_digit (firstn n a).
Proof. induction n as [|n IH]; intros a; [reflexivity|]. destruct a as [|x a]; [destruct n; reflexivity|]. replace (2 * S n)%nat with (S (S (2 * n))) by lia. cbn. unfold hex_chars in IH. rewrite <- (IH a). reflexivity. Qed.

(** Two node ids on two networks have the same directory exactly if the networks are the same and so are the first four bytes. *)
Theorem C107_directory : forall n n' id id', bytes_ok id -> bytes_ok id' ->
  node_dir n id = node_dir n' id' <-> n = n' /\ firstn 4 id = firstn 4 id'.
Proof.
  intros n n' id id' B B'. unfold node_dir. change 8%nat with (2 * 4)%nat. rewrite !hex_chars_firstn. split.
  - intros E. destruct n, n'; try discriminate E; (split; [reflexivity|]); apply hex_chars_inj; try (apply bytes_ok_firstn; assumption);
      repeat apply app_inv_head in E; exact E.
  - intros [-> ->]. reflexivity.
Qed.
(** So different nodes may share a directory, with their databases in it: *)
Theorem C107_shared_refuted : forall d n k k' x x', x <> x' -> parse k = Some x -> parse k' = Some x' ->
  bytes_ok (node_id x) -> bytes_ok (node_id x') -> firstn 4 (node_id x) = firstn 4 (node_id x') ->
  exists dir, snd (run d [{| given := Some k; fresh := []; on := n; stops := Never |}; {| given := Some k'; fresh := []; on := n; stops := Never |}])
    = [Started dir x; Started dir x'].
Proof.
  intros d n k k' x x' _ P P' B B' E. exists (node_dir n (node_id x)). unfold Identity_Model.run, Identity_Model.step, configure_node_data_dir. cbn [given on stops]. rewrite P, P'. cbn.
  f_equal. f_equal. f_equal. symmetry. apply C107_directory; auto.
Qed.

(** *** Crashes *)
(** A node that stops while it writes its first key: if what has been written is no key, it never starts again
    without a key given or someone removing the file. *)
Theorem C107_crash_refuted : forall d s n l s', key_file d = None -> given s = None -> stops s = Within n ->
  (forall k, read_key (firstn n (hex_encode (fresh s))) <> Ok k) -> given s' = None ->
  snd (step d s) = Stopped /\ snd (step (fst (run d (s :: l))) s') = Refused.
Proof.
  intros d s n l s' E G T H G'.
  assert (S1 : step d s = ({| key_file := Some (firstn n (hex_encode (fresh s))); dirs := dirs d |}, Stopped)).
  { unfold Identity_Model.step, configure_node_data_dir, get_application_private_key. rewrite E, G, T. reflexivity. }
  split; [rewrite S1; reflexivity|].
  assert (F : key_file (fst (run d (s :: l))) = Some (firstn n (hex_encode (fresh s)))).
  { cbn [Identity_Model.run]. rewrite S1. set (d1 := Build_data_dir _ _). pose proof (run_file l d1 _ eq_refl) as X. destruct (run d1 l). exact X. }
  rewrite (step_with _ _ _ F G'). destruct (read_key _) eqn:R; [exfalso; exact (H _ eq_refl)|reflexivity|reflexivity].
Qed.
(** That is so if nothing, a part of "0x" or half of a byte has been written. *)
Lemma spells_even s b : hex_spells s b -> length s = (2 * length b)%nat.
Proof. induction 1; cbn; lia. Qed.
Theorem C107_crash_points : forall key n k, length key = 32%nat -> bytes_ok key -> (n < 2 \/ (Nat.Odd n /\ n < 66))%nat -> read_key (firstn n (hex_encode key)) <> Ok k.
Proof.
  intros key n k L B Hn E. unfold Identity_Model.read_key in E. destruct (hex_decode (firstn n (hex_encode key))) as [b| |] eqn:D; try discriminate E.
  apply hex_decode_spec in D as (x & h & Es & _ & Sp). apply spells_even in Sp.
  assert (Ln : length (firstn n (hex_encode key)) = n).
  { rewrite firstn_length. unfold hex_encode. rewrite app_length, hex_chars_length. cbn [length]. destruct Hn as [|[_ ]]; lia. }
  rewrite Es in Ln. cbn in Ln. destruct Hn as [Hn | [[m Hm] _]]; lia.
Qed.
End Node.

(** ** The checkpoint *)
(** What is loaded is the checkpoint that was saved last, unless the process stopped in the middle of saving it.  Then it is
    the default: never a part of a checkpoint, and never one that was not saved. *)
Theorem C107_checkpoint : forall default file l c upto, length c = 32%nat ->
  load_checkpoint default (saved (l ++ [(c, upto)]) file) =
    match upto with
    | None => c
    | Some n => if (n <? 32)%nat then default else c
    end.
Proof.
  intros default file l c upto L. unfold saved. rewrite fold_left_app. cbn [fold_left fst snd]. unfold save_checkpoint, load_checkpoint, blen. destruct upto as [n|].
  - rewrite firstn_length. destruct (Nat.ltb_spec n 32).
    + replace (N.of_nat (Nat.min n (length c)) =? 32) with false by (symmetry; apply N.eqb_neq; lia). reflexivity.
    + replace (N.of_nat (Nat.min n (length c)) =? 32) with true by (symmetry; apply N.eqb_eq; lia). apply firstn_all2. lia.
  - rewrite L. reflexivity.
Qed.
(** The checkpoint that was saved before is lost by such a stop. *)
Theorem C107_checkpoint_lost_refuted : forall default old new n, length old = 32%nat -> length new = 32%nat -> (n < 32)%nat ->
  load_checkpoint default (saved [(old, None)] None) = old /\ load_checkpoint default (saved [(old, None); (new, Some n)] None) = default.
Proof.
  intros default old new n Lo Ln H. split; [apply (C107_checkpoint default None [] old None Lo)|].
  etransitivity; [apply (C107_checkpoint default None [(old, None)] new (Some n) Ln)|]. destruct (Nat.ltb_spec n 32); [reflexivity|lia].
Qed.

(** ** Examples *)
Definition toy_parse (b : bytes) : option bytes := if (blen b =? 32) && negb (be_num b =? 0) then Some b else None.
Definition toy_id (k : bytes) : bytes := rev k.
Definition key (x : N) : bytes := repeat x 32.
Definition plain (n : network) (x : N) (s : stop) : start := {| given := None; fresh := key x; on := n; stops := s |}.
(** A node that is generated, one with a key given, and the first again, on another network *)
Example C107_example :
  snd (run toy_parse toy_id empty [plain Mainnet 7 Before; plain Mainnet 8 Never; {| given := Some (key 9); fresh := key 1; on := Mainnet; stops := Never |}; plain Sepolia 10 Never])
  = [Stopped; Started (lit "trin_08080808") (key 8); Started (lit "trin_09090909") (key 9); Started (lit "sepolia_trin_08080808") (key 8)].
Proof. vm_compute. reflexivity. Qed.
(** A crash after the file was created *)
Example C107_crash_example :
  snd (run toy_parse toy_id empty [plain Mainnet 7 (Within 0); plain Mainnet 8 Never; plain Mainnet 9 Never]) = [Stopped; Refused; Refused].
Proof. vm_compute. reflexivity. Qed.
(** Two nodes in one directory *)
Example C107_shared_example :
  let k y := repeat y 28 ++ repeat 5 4 in
  snd (run toy_parse toy_id empty [{| given := Some (k 1); fresh := []; on := Mainnet; stops := Never |}; {| given := Some (k 2); fresh := []; on := Mainnet; stops := Never |}])
  = [Started (lit "trin_05050505") (k 1); Started (lit "trin_05050505") (k 2)].
Proof. vm_compute. reflexivity. Qed.
Example C107_checkpoint_example :
  map (fun l => load_checkpoint (key 0) (saved l None)) [[]; [(key 1, None)]; [(key 1, None); (key 2, Some 3%nat)]; [(key 1, Some 0%nat); (key 2, None)]] = [key 0; key 1; key 0; key 2].
Proof. vm_compute. reflexivity. Qed.
Example C107_data_dir_example :
  configure_trin_data_dir [lit "tmp"] (Some [lit "home"]) (lit "x") (Some [lit "env"]) None false = Ok [lit "env"] /\
  configure_trin_data_dir [lit "tmp"] (Some [lit "home"]) (lit "x") None None true = Ok [lit "tmp"; lit "trin"; lit "x"] /\
  configure_trin_data_dir [lit "tmp"] (Some [lit "home"]) (lit "x") (Some []) (Some []) false = Err.
Proof. vm_compute. auto. Qed.

Print Assumptions C107_data_dir.
Print Assumptions C107_identity.
Print Assumptions C107_one_identity.
Print Assumptions C107_generated.
Print Assumptions C107_given.
Print Assumptions C107_directories.
Print Assumptions C107_directory.
Print Assumptions C107_shared_refuted.
Print Assumptions C107_crash_refuted.
Print Assumptions C107_crash_points.
Print Assumptions C107_checkpoint.
Print Assumptions C107_checkpoint_lost_refuted.
