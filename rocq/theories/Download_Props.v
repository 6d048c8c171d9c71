(** C132: downloads. *)
From Coq Require Import QArith Lqa.
From Verif Require Import Base F64_Model F64_Proofs Download_Model Download_Spec.
Open Scope N_scope.

Lemma download_from_cases server : forall left n, N.of_nat left + n = 10 ->
  (exists k, n <= k <= 10 /\ (forall i, n <= i < k -> server i = Broken) /\
     ((exists st b, server k = Got st b /\ download_from server n left = (k, Ok b)) \/ server k = Unreached /\ download_from server n left = (k, Err))) \/
  ((forall i, n <= i <= 10 -> server i = Broken) /\ download_from server n left = (10, Err)).
Proof.
  induction left as [|left IH]; intros n E; cbn [download_from]; destruct (server n) as [| |st b] eqn:S.
  1,4: left; exists n; split; [lia|]; split; [intros i Hi; lia|]; right; auto.
  2,4: left; exists n; split; [lia|]; split; [intros i Hi; lia|]; left; eauto.
  - right. destruct (N.leb_spec 10 n); [|lia]. split; [intros i Hi; replace i with n by lia; exact S|f_equal; lia].
  - destruct (N.leb_spec 10 n); [lia|]. destruct (IH (n + 1) ltac:(lia)) as [(k & Hk & B & R)|(B & R)].
    + left. exists k. split; [lia|]. split; [intros i Hi; destruct (N.eq_dec i n) as [->|]; [exact S|apply B; lia]|exact R].
    + right. split; [intros i Hi; destruct (N.eq_dec i n) as [->|]; [exact S|apply B; lia]|exact R].
Qed.
(** A body that breaks off is asked for again, up to ten times; the first whole body is the file *)
Theorem C132_retries : forall server,
  (exists k, 1 <= k <= 10 /\ (forall i, 1 <= i < k -> server i = Broken) /\
     ((exists status body, server k = Got status body /\ download_raw server = (k, Ok body)) \/ server k = Unreached /\ download_raw server = (k, Err))) \/
  ((forall i, 1 <= i <= 10 -> server i = Broken) /\ download_raw server = (10, Err)).
Proof. intros server. exact (download_from_cases server 9 1 eq_refl). Qed.
(** Not so: that what is downloaded is a file.  The page of an error is taken for one, whatever its status *)
Theorem C132_status_refuted : forall server status page, server 1 = Got status page -> download_raw server = (1, Ok page).
Proof. intros server status page E. unfold download_raw. cbn [download_from]. rewrite E. reflexivity. Qed.
(** Not so: that a request that fails is made again.  One that gets no answer ends the download *)
Theorem C132_unreached_refuted : forall server, server 1 = Unreached -> download_raw server = (1, Err).
Proof. intros server E. unfold download_raw. cbn [download_from]. rewrite E. reflexivity. Qed.

Lemma body_app a b : body_of (a ++ b) = match body_of a, body_of b with Some x, Some y => Some (x ++ y) | _, _ => None end.
Proof. induction a as [|p a IH]; cbn; [destruct (body_of b); reflexivity|]. rewrite IH. destruct (p_data p), (body_of a), (body_of b); rewrite ?app_assoc; reflexivity. Qed.
Lemma receive_gives total : forall l amount last file, exists a b x, l = a ++ b /\ body_of a = Some x /\ fst (receive total l amount last file) = file ++ x /\
  (snd (receive total l amount last file) = Ok tt -> b = []) /\ (snd (receive total l amount last file) = Err -> exists p b', b = p :: b' /\ p_data p = None).
Proof.
  induction l as [|p l IH]; intros amount last file.
  - exists [], [], []. cbn. rewrite app_nil_r. split; [reflexivity|]. split; [reflexivity|]. split; [reflexivity|]. split; [auto|discriminate].
  - cbn [receive]. destruct (p_data p) as [c|] eqn:D.
    + assert (R : forall am la, exists a b x, p :: l = a ++ b /\ body_of a = Some x /\ fst (receive total l am la (file ++ c)) = file ++ x /\
        (snd (receive total l am la (file ++ c)) = Ok tt -> b = []) /\ (snd (receive total l am la (file ++ c)) = Err -> exists p b', b = p :: b' /\ p_data p = None)).
      { intros am la. destruct (IH am la (file ++ c)) as (a & b & x & -> & Ba & F & S). exists (p :: a), b, (c ++ x). split; [reflexivity|]. split; [cbn; rewrite D, Ba; reflexivity|]. split; [rewrite F, app_assoc; reflexivity|exact S]. }
      destruct (Qle_bool 2 (p_elapsed p)); [|apply R]. destruct (report total (amount + blen c) last (p_elapsed p)) as [[]| |] eqn:Rp; [apply R| |].
      * unfold report in Rp. destruct (total =? 0); [discriminate|]. destruct (_ =? 0); [discriminate|]. destruct (Qle_bool _ _); discriminate.
      * exists [p], l, c. split; [reflexivity|]. split; [cbn; rewrite D, app_nil_r; reflexivity|]. split; [reflexivity|]. cbn. split; discriminate.
    + exists [], (p :: l), []. split; [reflexivity|]. split; [reflexivity|]. split; [cbn; rewrite app_nil_r; reflexivity|]. cbn. split; [discriminate|]. intros _. eauto.
Qed.
(** A download that succeeds has written the whole body; one that fails has written the pieces before the one that failed *)
Theorem C132_file : forall len l old f r, download_with_progress (Some (len, l)) true old = (f, r) ->
  (r = Ok tt -> exists body, body_of l = Some body /\ f = Some body) /\ (r = Err -> exists a p b x, l = a ++ p :: b /\ p_data p = None /\ body_of a = Some x /\ f = Some x) /\ exists x, f = Some x /\ beginning x l.
Proof.
  intros len l old f r E. cbn [download_with_progress] in E. set (t := match len with Some n => n | None => 0 end) in *. destruct (receive_gives t l 0 0 []) as (a & b & x & -> & Ba & F & So & Se).
  destruct (receive t (a ++ b) 0 0 []) as (g, s). injection E as <- <-. cbn [fst snd] in *. cbn [app] in F. subst g. split; [|split].
  - intros Ok1. rewrite (So Ok1), app_nil_r. eauto.
  - intros E1. destruct (Se E1) as (p & b' & -> & N). exists a, p, b', x. auto.
  - exists x. split; [reflexivity|]. exists a, b. auto.
Qed.
(** If the length is not known, nothing stops the program, and the download succeeds exactly if no piece fails *)
Lemma receive_unknown : forall l amount last file, snd (receive 0 l amount last file) <> Panic /\ (snd (receive 0 l amount last file) = Ok tt <-> body_of l <> None).
Proof.
  induction l as [|p l IH]; intros amount last file; [cbn; split; [discriminate|split; [discriminate|reflexivity]]|]. cbn [receive body_of]. destruct (p_data p) as [c|]; [|cbn; split; [discriminate|split; [discriminate|congruence]]].
  change (report 0 (amount + blen c) last (p_elapsed p)) with (Ok tt). cbn iota.
  assert (B' : body_of l <> None <-> match body_of l with Some b => Some (c ++ b) | None => None end <> None) by (destruct (body_of l); split; congruence).
  destruct (Qle_bool 2 (p_elapsed p)); [destruct (IH (amount + blen c) (amount + blen c) (file ++ c)) as (A1 & A2)|destruct (IH (amount + blen c) last (file ++ c)) as (A1 & A2)]; (split; [exact A1|rewrite A2; exact B']).
Qed.
Theorem C132_unknown : forall l old, snd (download_with_progress (Some (None, l)) true old) <> Panic /\ (snd (download_with_progress (Some (None, l)) true old) = Ok tt <-> body_of l <> None).
Proof. intros l old. cbn [download_with_progress]. pose proof (receive_unknown l 0 0 []) as (A & B). destruct (receive 0 l 0 0 []). split; [exact A|exact B]. Qed.
Open Scope Q_scope.
Lemma round_half q : 0 <= q -> q * (1#2) <= round53 q /\ round53 q <= q * 2 /\ 0 <= round53 q.
Proof. intros H. destruct (round53_bounds q H) as (A & B & C). assert (U : 0 <= u /\ u <= 1#2) by (unfold u; split; unfold Qle; cbn; lia). split; [|split; [|exact C]]; nra. Qed.
Lemma report_safe total amount last elapsed : (total <= 2 ^ 44)%N -> (last < amount)%N -> 2 <= elapsed -> elapsed <= inject_Z (2 ^ 12) -> report total amount last elapsed = Ok tt.
Proof.
  intros Lt La E1 E2. unfold report. destruct (N.eqb_spec total 0); [reflexivity|]. destruct (N.eqb_spec (amount - last) 0); [lia|].
  destruct (Qle_bool _ _) eqn:Q; [|reflexivity]. exfalso. apply Qle_bool_iff in Q. set (i := (amount - last)%N) in *. set (r := (total - amount)%N) in *.
  assert (Hi : 1 <= inject_Z (Z.of_N i)) by (change 1 with (inject_Z 1); rewrite <- Zle_Qle; lia).
  assert (Hr : 0 <= inject_Z (Z.of_N r)) by (change 0 with (inject_Z 0); rewrite <- Zle_Qle; lia).
  assert (Hr2 : inject_Z (Z.of_N r) <= inject_Z (2 ^ 44)) by (rewrite <- Zle_Qle; subst r; lia).
  unfold f64_of, fdiv in Q. destruct (round_half (inject_Z (Z.of_N i)) ltac:(lra)) as (I1 & I2 & I3), (round_half (inject_Z (Z.of_N r)) Hr) as (R1 & R2 & R3).
  set (i' := round53 (inject_Z (Z.of_N i))) in *. set (r' := round53 (inject_Z (Z.of_N r))) in *. assert (Ep : 0 < elapsed) by lra.
  assert (S0 : 0 <= i' / elapsed) by (apply Qle_shift_div_l; [exact Ep|lra]). destruct (round_half _ S0) as (S1 & S2 & S3). set (s := round53 (i' / elapsed)) in *.
  assert (Sb : 1 # 16384 <= s).
  { apply Qle_trans with (i' / elapsed * (1#2)); [|exact S1]. assert (1 # 8192 <= i' / elapsed); [|lra]. apply Qle_shift_div_l; [exact Ep|]. change (inject_Z (2 ^ 12)) with 4096 in E2. lra. }
  assert (Sp : 0 < s) by lra. assert (V0 : 0 <= r' / s) by (apply Qle_shift_div_l; [exact Sp|lra]). destruct (round_half _ V0) as (_ & V2 & _).
  assert (Vb : r' / s <= inject_Z (2 ^ 60)). { apply Qle_shift_div_r; [exact Sp|]. change (inject_Z (2 ^ 60)) with (1152921504606846976 # 1). change (inject_Z (2 ^ 44)) with (17592186044416 # 1) in Hr2. lra. }
  assert (inject_Z (2 ^ 64) <= inject_Z (2 ^ 60) * 2) by lra. revert H. unfold Qle. cbn. lia.
Qed.
(** Nor does anything if the announced length is at most 16 TiB, no piece is empty and two reports are at most an hour apart *)
Theorem C132_safe : forall len l creates old, (len <= 2 ^ 44)%N -> Forall (fun p => p_data p <> Some [] /\ p_elapsed p <= inject_Z (2 ^ 12)) l ->
  snd (download_with_progress (Some (Some len, l)) creates old) <> Panic /\ (creates = true -> (snd (download_with_progress (Some (Some len, l)) creates old) = Ok tt <-> body_of l <> None)).
Proof.
  intros len l creates old Ll F. destruct creates; [|split; [discriminate|discriminate]]. cbn [download_with_progress].
  assert (G : forall am la file, (la <= am)%N -> snd (receive len l am la file) <> Panic /\ (snd (receive len l am la file) = Ok tt <-> body_of l <> None)).
  { induction F as [|p l (Np & Ep) F IH]; intros am la file Le; [cbn; split; [discriminate|split; [discriminate|reflexivity]]|]. cbn [receive body_of]. destruct (p_data p) as [c|]; [|cbn; split; [discriminate|split; [discriminate|congruence]]].
    assert (B : body_of l <> None <-> match body_of l with Some b => Some (c ++ b) | None => None end <> None) by (destruct (body_of l); split; congruence).
    assert (Lc : (la < am + blen c)%N) by (destruct c; [exfalso; apply Np; reflexivity|]; unfold blen; cbn [length]; lia).
    destruct (Qle_bool 2 (p_elapsed p)) eqn:Q.
    - apply Qle_bool_iff in Q. rewrite (report_safe len (am + blen c) la (p_elapsed p) Ll Lc Q Ep). destruct (IH (am + blen c)%N (am + blen c)%N (file ++ c) ltac:(lia)) as (A1 & A2). split; [exact A1|rewrite A2; exact B].
    - destruct (IH (am + blen c)%N la (file ++ c) ltac:(lia)) as (A1 & A2). split; [exact A1|rewrite A2; exact B]. }
  specialize (G 0%N 0%N [] ltac:(lia)). destruct (receive len l 0 0 []). intuition.
Qed.
(** Not so otherwise: an empty piece that comes two seconds after the last report stops the program if the length is known *)
Theorem C132_empty_refuted : forall len l t old, (0 < len)%N -> 2 <= t -> download_with_progress (Some (Some len, {| p_data := Some []; p_elapsed := t |} :: l)) true old = (Some [], Panic).
Proof.
  intros len l t old L T. cbn [download_with_progress receive p_data p_elapsed]. apply Qle_bool_iff in T. rewrite T. unfold report. destruct (N.eqb_spec len 0); [lia|]. reflexivity.
Qed.
(** ... and so does a server that announces an absurd length and sends one byte *)
Theorem C132_length_refuted : forall l old, download_with_progress (Some (Some (2 ^ 64 - 1)%N, {| p_data := Some [7%N]; p_elapsed := 2 |} :: l)) true old = (Some [7%N], Panic).
Proof. intros l old. cbn [download_with_progress receive p_data p_elapsed]. change (Qle_bool 2 2) with true. cbn iota. assert (R : report (2 ^ 64 - 1) (0 + blen [7%N]) 0 2 = Panic) by (vm_compute; reflexivity). rewrite R. reflexivity. Qed.
(** Not so: that the old file stays if the download fails.  It is replaced by what came before the failure *)
Theorem C132_old_refuted : forall body l old, download_with_progress (Some (None, {| p_data := Some body; p_elapsed := 0 |} :: {| p_data := None; p_elapsed := 0 |} :: l)) true old = (Some body, Err).
Proof. intros. reflexivity. Qed.
Print Assumptions C132_retries.
Print Assumptions C132_status_refuted.
Print Assumptions C132_unreached_refuted.
Print Assumptions C132_file.
Print Assumptions C132_unknown.
Print Assumptions C132_safe.
Print Assumptions C132_empty_refuted.
Print Assumptions C132_length_refuted.
Print Assumptions C132_old_refuted.

Open Scope N_scope.
Example C132_case :
  download_raw (fun i => if i <? 3 then Broken else Got 200 [1; 2]) = (3, Ok [1; 2]) /\ download_raw (fun i => if i =? 2 then Unreached else Broken) = (2, Err) /\ download_raw (fun _ => Broken) = (10, Err) /\
  download_with_progress (Some (Some 3, [{| p_data := Some [1; 2]; p_elapsed := 1 |}; {| p_data := Some [3]; p_elapsed := 3 |}])) true (Some [9]) = (Some [1; 2; 3], Ok tt) /\
  download_with_progress None true (Some [9]) = (Some [9], Err).
Proof. repeat (split; [vm_compute; reflexivity|]). vm_compute. reflexivity. Qed.
