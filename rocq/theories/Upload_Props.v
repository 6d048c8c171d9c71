(** C130: files are uploaded whole or not at all. *)
From Verif Require Import Base Header_Model Upload_Model Upload_Spec.

Fixpoint numbered_from (n : N) (cs : list bytes) : list (N * bytes) := match cs with [] => [] | c :: r => (n, c) :: numbered_from (n + 1) r end.
Lemma numbered_ge : forall cs n x, In x (numbered_from n cs) -> n <= fst x.
Proof. induction cs as [|c cs IH]; intros n x I; [destruct I|]. destruct I as [<-|I]; [cbn; lia|]. apply IH in I. lia. Qed.
Lemma find_none' {A} (f : A -> bool) l : (forall x, In x l -> f x = false) -> find f l = None.
Proof. induction l as [|a l IH]; intros H; [reflexivity|]. cbn. rewrite (H a (or_introl eq_refl)). apply IH. intros x I. apply H. now right. Qed.
Lemma find_app' {A} (f : A -> bool) l l' : find f (l ++ l') = match find f l with Some x => Some x | None => find f l' end.
Proof. induction l as [|a l IH]; [reflexivity|]. cbn. destruct (f a); [reflexivity|exact IH]. Qed.
Lemma find_numbered : forall cs n x, In x (numbered_from n cs) -> find (fun y => fst y =? fst x) (rev (numbered_from n cs)) = Some x.
Proof.
  induction cs as [|c cs IH]; intros n x I; [destruct I|]. cbn [numbered_from rev]. rewrite find_app'. destruct I as [<-|I].
  - rewrite find_none'; [cbn; rewrite N.eqb_refl; reflexivity|]. intros y J. apply in_rev in J. apply numbered_ge in J. cbn. apply N.eqb_neq. lia.
  - rewrite (IH _ _ I). reflexivity.
Qed.
Lemma chunks_concat k : (0 < k)%nat -> forall fuel l, (length l <= fuel)%nat -> concat (chunks_from fuel k l) = l.
Proof.
  intros P. induction fuel as [|f IH]; intros l L; [destruct l; [reflexivity|cbn in L; lia]|]. destruct l as [|x l]; [reflexivity|]. cbn [chunks_from concat].
  rewrite IH; [apply firstn_skipn|]. rewrite skipn_length. cbn [length] in *. lia.
Qed.
Lemma chunks_sizes k : (0 < k)%nat -> forall fuel l, (length l <= fuel)%nat ->
  Forall (fun c => (0 < length c <= k)%nat) (chunks_from fuel k l) /\ Forall (fun c => length c = k) (removelast (chunks_from fuel k l)).
Proof.
  intros P. induction fuel as [|f IH]; intros l L; [destruct l; [split; constructor|cbn in L; lia]|]. destruct l as [|x l]; [split; constructor|]. cbn [chunks_from].
  destruct (IH (skipn k (x :: l))) as (A & B); [rewrite skipn_length; cbn [length] in *; lia|]. split.
  - constructor; [|exact A]. rewrite firstn_length. cbn [length]. lia.
  - cbn [removelast]. destruct (chunks_from f k (skipn k (x :: l))) eqn:E; [constructor|]. constructor; [|exact B].
    rewrite firstn_length. destruct (Nat.le_gt_cases k (length (x :: l))); [lia|]. rewrite skipn_all2 in E by lia. destruct f; discriminate.
Qed.
Lemma chunks_count k : (0 < k)%nat -> forall fuel l, (length l <= fuel)%nat -> (length (chunks_from fuel k l) = length l / k + (if length l mod k =? 0 then 0 else 1))%nat.
Proof.
  intros P. induction fuel as [|f IH]; intros l L.
  - destruct l; [|cbn in L; lia]. cbn [chunks_from length]. rewrite Nat.div_0_l, Nat.mod_0_l by lia. reflexivity.
  - destruct l as [|x l]; [cbn [chunks_from length]; rewrite Nat.div_0_l, Nat.mod_0_l by lia; reflexivity|]. cbn [chunks_from]. cbn [length]. change (S (length l)) with (length (x :: l)). set (y := x :: l) in *.
    rewrite IH by (rewrite skipn_length; subst y; cbn [length] in *; lia). rewrite skipn_length. assert (Ly : (0 < length y)%nat) by (subst y; cbn; lia). clearbody y. clear L IH.
    destruct (Nat.le_gt_cases k (length y)).
    + replace (length y) with (length y - k + 1 * k)%nat at 3 4 by lia. rewrite Nat.div_add, Nat.mod_add by lia. lia.
    + replace (length y - k)%nat with 0%nat by lia. rewrite Nat.div_0_l, Nat.mod_0_l by lia. rewrite Nat.div_small, (Nat.mod_small (length y)) by lia. destruct (Nat.eqb_spec (length y) 0); [lia|reflexivity].
Qed.
Lemma ceil_bounds a b c : div_ceil a b = Ok c -> 0 < b /\ a <= c * b /\ (0 < a -> (c - 1) * b < a /\ 0 < c) /\ (a = 0 -> c = 0).
Proof.
  unfold div_ceil. destruct (N.eqb_spec b 0) as [|Nb]; [discriminate|]. intros [= <-]. pose proof (N.div_mod a b Nb) as D. pose proof (N.mod_lt a b Nb) as M. set (q := a / b) in *. set (r := a mod b) in *. clearbody q r.
  destruct (N.eqb_spec r 0) as [Z|Z].
  - split; [lia|]. split; [nia|]. split; [|intros ->; nia]. intros A. split; nia.
  - split; [lia|]. split; [nia|]. split; [|intros ->; nia]. intros A. split; [replace (q + 1 - 1) with q by lia; nia|lia].
Qed.
Section S.
Variable etag : bytes -> N.
Notation put_part := (put_part etag). Notation put_all := (put_all etag). Notation complete := (complete etag). Notation upload_file := (upload_file etag).
Lemma add_others id n d us : (forall u, In u us -> up_id u <> id) -> map (add_part id n d) us = us.
Proof. intros H. rewrite <- (map_id us) at 2. apply map_ext_in. intros u I. unfold add_part. destruct (N.eqb_spec (up_id u) id); [elim (H u I); assumption|reflexivity]. Qed.
(** What the parts do to the bucket, whether or not one fails *)
Lemma put_all_gives fates id key us : (forall u, In u us -> up_id u <> id) -> forall cs n acc os P nx, 1 <= n -> n <= 10001 ->
  let b := {| objects := os; uploads := {| up_id := id; up_key := key; up_parts := P |} :: us; next_id := nx |} in
  (exists done, exists rest, (cs = done ++ rest) /\
     (put_all fates id n cs acc b =
       ({| objects := os; uploads := {| up_id := id; up_key := key; up_parts := rev (numbered_from n done) ++ P |} :: us; next_id := nx |}, Err) /\
      (exists i, n <= i < n + N.of_nat (length cs) /\ (fates i <> Served \/ 10000 < i))
   \/ rest = [] /\ n + N.of_nat (length cs) <= 10001 /\ (forall i, n <= i < n + N.of_nat (length cs) -> fates i = Served) /\
      put_all fates id n cs acc b =
       ({| objects := os; uploads := {| up_id := id; up_key := key; up_parts := rev (numbered_from n cs) ++ P |} :: us; next_id := nx |},
        Ok (acc ++ map (fun x => (fst x, etag (snd x))) (numbered_from n cs))))).
Proof.
  intros O. induction cs as [|c cs IH]; intros n acc os P nx L1 L2 b.
  - exists [], []. split; [reflexivity|]. right. split; [reflexivity|]. split; [cbn; lia|]. split; [cbn; intros i Hi; lia|]. cbn. rewrite app_nil_r. reflexivity.
  - cbn [Upload_Model.put_all]. rewrite N.mod_small by lia. unfold Upload_Model.put_part.
    assert (Ex : existsb (fun u => up_id u =? id) (uploads b) = true) by (cbn; rewrite N.eqb_refl; reflexivity).
    destruct (fates n) eqn:F.
    2,3: rewrite Ex; replace (1 <=? n) with true by (symmetry; apply N.leb_le; lia); cbn [andb]; destruct (N.leb_spec n 10000);
      [exists [c], cs; split; [reflexivity|]; left; split; [cbn; rewrite (add_others id n c us O); unfold add_part; cbn [up_id]; rewrite N.eqb_refl; reflexivity|exists n; split; [cbn [length]; lia|left; congruence]]
      |exists [], (c :: cs); split; [reflexivity|]; left; split; [reflexivity|exists n; split; [cbn [length]; lia|left; congruence]]].
    2: exists [], (c :: cs); split; [reflexivity|]; left; split; [reflexivity|exists n; split; [cbn [length]; lia|left; congruence]].
    rewrite Ex. replace (1 <=? n) with true by (symmetry; apply N.leb_le; lia). cbn [andb]. destruct (N.leb_spec n 10000).
    2: exists [], (c :: cs); split; [reflexivity|]; left; split; [reflexivity|exists n; split; [cbn [length]; lia|right; lia]].
    cbn [objects uploads next_id b map]. rewrite (add_others id n c us O). cbn [andb]. unfold add_part. cbn [up_id up_key up_parts]. rewrite !N.eqb_refl.
    specialize (IH (n + 1) (acc ++ [(n, etag c)]) os ((n, c) :: P) nx ltac:(lia) ltac:(lia)). cbn zeta in IH. destruct IH as (done & rest & -> & [(E & i & Hi & Fi)|(-> & Ln & Fs & E)]).
    + exists (c :: done), rest. split; [reflexivity|]. left. split; [rewrite E; cbn [numbered_from rev]; rewrite <- app_assoc; reflexivity|]. exists i. cbn [length]. split; [lia|exact Fi].
    + exists (c :: done), []. split; [reflexivity|]. right. split; [reflexivity|]. cbn [length]. rewrite app_nil_r in *. split; [lia|]. split.
      * intros i Hi. destruct (N.eq_dec i n) as [->|]; [exact F|apply Fs; lia].
      * rewrite E. cbn [numbered_from rev map fst snd]. rewrite <- !app_assoc. reflexivity.
Qed.
Lemma parts_numbered u : forall cs n, (forall x, In x (numbered_from n cs) -> find (fun y => fst y =? fst x) (up_parts u) = Some x) ->
  parts_of etag u (map (fun x => (fst x, etag (snd x))) (numbered_from n cs)) = Some cs.
Proof.
  induction cs as [|c cs IH]; intros n H; [reflexivity|]. cbn [numbered_from map parts_of fst snd]. rewrite IH by (intros x I; apply H; now right).
  unfold part_of. cbn [fst snd]. specialize (H (n, c) (or_introl eq_refl)). cbn [fst] in H. rewrite H, N.eqb_refl. reflexivity.
Qed.
Lemma assemble_nonempty u l : l <> [] ->
  assemble etag u l = match parts_of etag u l with Some ds => if ascending (map fst l) && forallb (fun d => min_part <=? N.of_nat (length d)) (removelast ds) then Some (concat ds) else None | None => None end.
Proof. destruct l; [congruence|reflexivity]. Qed.
Lemma ascending_numbered : forall cs n, ascending (map fst (map (fun x => (fst x, etag (snd x))) (numbered_from n cs))) = true.
Proof.
  induction cs as [|c cs IH]; intros n; [reflexivity|]. specialize (IH (n + 1)). destruct cs as [|d cs]; [reflexivity|]. cbn [numbered_from map fst ascending] in *. replace (n <? n + 1) with true by (symmetry; apply N.ltb_lt; lia). exact IH.
Qed.
Lemma object_cons key o os us nx us' nx' k :
  object {| objects := (key, o) :: os; uploads := us; next_id := nx |} k = if list_eq_dec N.eq_dec key k then Some o else object {| objects := os; uploads := us'; next_id := nx' |} k.
Proof. unfold object. cbn [objects find fst]. destruct (list_eq_dec N.eq_dec key k); reflexivity. Qed.
(** All that an upload may come to *)
Lemma upload_gives name file f_create f_complete f_part b : ids_fresh b ->
  let '(b', r) := upload_file name file f_create f_complete f_part b in
  (objects b' = objects b /\ r <> Ok tt /\ (r = Panic -> exists c, file = Some (0, c))) \/
  (exists key size content k cs, name = Some key /\ file = Some (size, content) /\ size <= N.of_nat (length content) /\ 0 < size /\ f_create = Served /\ f_complete <> Refused /\
     chunk_size size = Ok k /\ cs = chunks_from (N.to_nat size) (N.to_nat k) (file_then size content) /\ N.of_nat (length cs) <= 10000 /\ (forall i, 1 <= i <= N.of_nat (length cs) -> f_part i = Served) /\
     forallb (fun d => min_part <=? N.of_nat (length d)) (removelast cs) = true /\
     objects b' = (key, file_then size content) :: objects b /\ uploads b' = uploads b /\ (f_complete = Lost /\ r = Err \/ f_complete <> Lost /\ r = Ok tt)).
Proof.
  intros Fr. unfold Upload_Model.upload_file. destruct name as [key|]; [|left; split; [reflexivity|split; discriminate]]. destruct file as [(size, content)|]; [|left; split; [reflexivity|split; discriminate]].
  destruct (N.ltb_spec (N.of_nat (length content)) size) as [|Le]; [left; split; [reflexivity|split; discriminate]|].
  destruct (chunk_size size) as [k| |] eqn:K; [|left; split; [reflexivity|split; discriminate]|].
  2:{ left. split; [reflexivity|]. split; [discriminate|]. intros _. exists content. unfold chunk_size in K. destruct (div_ceil size target_chunk_size) as [pc| |] eqn:D; [|unfold div_ceil in D; destruct (_ =? 0); discriminate|discriminate].
      apply ceil_bounds in D as (_ & _ & D & _). cbn [obind] in K. unfold div_ceil in K. destruct (N.eqb_spec pc 0) as [->|]; [|discriminate]. destruct (N.eq_dec size 0) as [->|]; [reflexivity|]. destruct D; lia. }
  assert (Sz : 0 < size /\ 0 < k).
  { unfold chunk_size in K. destruct (div_ceil size target_chunk_size) as [pc| |] eqn:D; [|discriminate|discriminate]. cbn [obind] in K. apply ceil_bounds in D as (_ & _ & D1 & D2), K as (K1 & _ & K2 & _). destruct (N.eq_dec size 0) as [E|]; [specialize (D2 E); lia|].
    split; [lia|]. destruct K2; lia. }
  destruct Sz as (Sz & Kp). unfold create. destruct f_create; [|left; split; [reflexivity|split; discriminate]|left; split; [reflexivity|split; discriminate]|left; split; [reflexivity|split; discriminate]].
  unfold chunks. destruct (N.eqb_spec k 0) as [|_]; [lia|]. fold (file_then size content).
  assert (Len : length (file_then size content) = N.to_nat size) by (unfold file_then; rewrite firstn_length; lia). rewrite Len.
  set (cs := chunks_from (N.to_nat size) (N.to_nat k) (file_then size content)).
  assert (Cc : concat cs = file_then size content) by (apply chunks_concat; lia).
  assert (Ne : cs <> []) by (intros E; rewrite E in Cc; cbn in Cc; rewrite <- Cc in Len; cbn in Len; lia).
  assert (Ot : forall u, In u (uploads b) -> up_id u <> next_id b) by (intros u I; specialize (Fr u I); lia).
  pose proof (put_all_gives f_part (next_id b) key (uploads b) Ot cs 1 [] (objects b) [] (next_id b + 1) ltac:(lia) ltac:(lia)) as G. cbn zeta in G.
  destruct G as (done & rest & _ & [(E & _)|(_ & Ln & Fs & E)]); rewrite E; [left; split; [reflexivity|split; discriminate]|]. clear E done rest. cbn [app]. rewrite app_nil_r.
  unfold Upload_Model.complete. destruct f_complete eqn:Fc; cbn [uploads find up_id]; rewrite ?N.eqb_refl.
  4: left; split; [reflexivity|split; discriminate].
  all: set (u := {| up_id := next_id b; up_key := key; up_parts := rev (numbered_from 1 cs) |});
    assert (As : assemble etag u (map (fun x => (fst x, etag (snd x))) (numbered_from 1 cs)) = if forallb (fun d => min_part <=? N.of_nat (length d)) (removelast cs) then Some (file_then size content) else None)
      by (rewrite assemble_nonempty by (destruct cs; [congruence|discriminate]); rewrite (parts_numbered u cs 1) by (intros x I; apply find_numbered; exact I); rewrite ascending_numbered, Cc; reflexivity);
    rewrite As; destruct (forallb (fun d : list N => min_part <=? N.of_nat (length d)) (removelast cs)) eqn:Mn; [|left; split; [reflexivity|split; discriminate]];
    right; exists key, size, content, k, cs; cbn [objects uploads filter up_id]; rewrite N.eqb_refl; cbn [negb];
    assert (Fl : filter (fun u => negb (up_id u =? next_id b)) (uploads b) = uploads b)
      by (clear -Ot; induction (uploads b) as [|v us IH]; [reflexivity|]; cbn; destruct (N.eqb_spec (up_id v) (next_id b)) as [X|]; [elim (Ot v (or_introl eq_refl) X)|]; cbn; f_equal; apply IH; intros w I; apply Ot; now right);
    rewrite Fl; do 5 (split; [first [reflexivity|exact Le|exact Sz]|]); split; [discriminate|]; split; [first [exact K|reflexivity]|]; split; [reflexivity|]; split; [lia|]; split; [intros i Hi; apply Fs; lia|]; split; [exact Mn|]; split; [reflexivity|]; split; [reflexivity|]; auto.
  all: right; split; [discriminate|reflexivity].
Qed.
(** An upload that succeeds has put the whole file under its name, nothing else is changed and no upload is left open *)
Theorem C130_object : forall name size content f_create f_complete f_part b b', ids_fresh b -> upload_file (Some name) (Some (size, content)) f_create f_complete f_part b = (b', Ok tt) ->
  object b' name = Some (file_then size content) /\ same_but name b b' /\ uploads b' = uploads b /\ length (file_then size content) = N.to_nat size /\ size <= largest_file.
Proof.
  intros name size content fc fk fp b b' Fr E. pose proof (upload_gives (Some name) (Some (size, content)) fc fk fp b Fr) as G. rewrite E in G.
  destruct G as [(_ & X & _)|(key & sz & ct & k & cs & [= <-] & [= <- <-] & Le & Sz & _ & _ & K & -> & Ln & _ & _ & Ob & Up & _)]; [congruence|].
  assert (Len : length (file_then size content) = N.to_nat size) by (unfold file_then; rewrite firstn_length; lia).
  split; [unfold object; rewrite Ob; cbn [find fst]; destruct (list_eq_dec N.eq_dec name name); [reflexivity|congruence]|].
  split; [intros j Nj; unfold object; rewrite Ob; cbn [find fst]; destruct (list_eq_dec N.eq_dec name j); [congruence|reflexivity]|]. split; [exact Up|]. split; [exact Len|].
  unfold chunk_size in K. destruct (div_ceil size target_chunk_size) as [pc| |] eqn:D; try discriminate. cbn [obind] in K. apply ceil_bounds in D as (_ & D0 & _ & _), K as (K1 & K0 & K2 & _). destruct (K2 Sz) as (K3 & K4).
  pose proof (chunks_sizes (N.to_nat k) ltac:(lia) (N.to_nat size) (file_then size content) ltac:(lia)) as (A & _).
  pose proof (chunks_concat (N.to_nat k) ltac:(lia) (N.to_nat size) (file_then size content) ltac:(lia)) as Cc.
  assert (Kt : k <= target_chunk_size). { unfold target_chunk_size in *. nia. }
  assert (B : (length (concat (chunks_from (N.to_nat size) (N.to_nat k) (file_then size content))) <= length (chunks_from (N.to_nat size) (N.to_nat k) (file_then size content)) * N.to_nat k)%nat).
  { clear -A. induction A as [|c l H A IH]; [cbn; lia|]. cbn [concat length]. rewrite app_length. lia. }
  rewrite Cc, Len in B. unfold largest_file. unfold target_chunk_size in Kt. nia.
Qed.
(** An upload that fails leaves every name with what it had, or has put the whole file under its own name: never a part of it *)
Theorem C130_whole : forall name size content f_create f_complete f_part b b' r, ids_fresh b -> upload_file (Some name) (Some (size, content)) f_create f_complete f_part b = (b', r) ->
  same_but name b b' /\ (object b' name = object b name \/ object b' name = Some (file_then size content) /\ f_complete <> Refused).
Proof.
  intros name size content fc fk fp b b' r Fr E. pose proof (upload_gives (Some name) (Some (size, content)) fc fk fp b Fr) as G. rewrite E in G.
  destruct G as [(Ob & _)|(key & sz & ct & k & cs & [= <-] & [= <- <-] & Le & Sz & _ & Nr & K & -> & Ln & _ & _ & Ob & Up & _)].
  - split; [intros j _|left]; unfold object; rewrite Ob; reflexivity.
  - split; [intros j Nj|right; split; [|exact Nr]]; unfold object; rewrite Ob; cbn [find fst]; destruct (list_eq_dec N.eq_dec name _); first [reflexivity|congruence].
Qed.
(** If the server serves, every file up to 1000000 MiB that is not empty is uploaded: the parts are neither too small, nor too large, nor too many *)
Lemma served_sizes size k : 0 < size -> chunk_size size = Ok k -> k <= target_chunk_size /\ 0 < k /\ (k < size -> 2 * min_part <= k).
Proof.
  intros Sz K. unfold chunk_size in K. destruct (div_ceil size target_chunk_size) as [pc| |] eqn:D; try discriminate. cbn [obind] in K. apply ceil_bounds in D as (_ & D0 & D1 & _), K as (K1 & K0 & K2 & _).
  destruct (D1 Sz) as (D2 & D3), (K2 Sz) as (K3 & K4). unfold target_chunk_size, min_part in *. split; [nia|]. split; [exact K4|]. intros L.
  assert (2 <= pc) by nia. assert (size > (pc - 1) * 104857600) by nia. nia.
Qed.
Theorem C130_served : forall name size content f_part b, ids_fresh b -> 0 < size -> size <= largest_file -> size <= N.of_nat (length content) ->
  (forall i, 1 <= i <= 10000 -> f_part i = Served) -> exists b', upload_file (Some name) (Some (size, content)) Served Served f_part b = (b', Ok tt).
Proof.
  intros name size content fp b Fr Sz Lg Le Fp. unfold Upload_Model.upload_file. destruct (N.ltb_spec (N.of_nat (length content)) size) as [|_]; [lia|].
  assert (exists k, chunk_size size = Ok k) as (k & K).
  { unfold chunk_size. destruct (div_ceil size target_chunk_size) as [pc| |] eqn:D; [|unfold div_ceil in D; destruct (_ =? 0); discriminate|discriminate]. apply ceil_bounds in D as (_ & _ & D & _). destruct (D Sz) as (_ & D0). cbn [obind]. unfold div_ceil. destruct (N.eqb_spec pc 0); [lia|eauto]. }
  rewrite K. destruct (served_sizes size k Sz K) as (Kt & Kp & Km). cbn [create]. unfold chunks. destruct (N.eqb_spec k 0) as [|_]; [lia|]. fold (file_then size content).
  assert (Len : length (file_then size content) = N.to_nat size) by (unfold file_then; rewrite firstn_length; lia). rewrite Len.
  set (cs := chunks_from (N.to_nat size) (N.to_nat k) (file_then size content)).
  assert (Cc : concat cs = file_then size content) by (apply chunks_concat; lia).
  assert (Ne : cs <> []) by (intros E; rewrite E in Cc; cbn in Cc; rewrite <- Cc in Len; cbn in Len; lia).
  assert (Cn : N.of_nat (length cs) <= 10000).
  { unfold chunk_size in K. destruct (div_ceil size target_chunk_size) as [pc| |] eqn:D; try discriminate. cbn [obind] in K. apply ceil_bounds in D as (_ & D0 & D1 & _), K as (K1 & K0 & K2 & _). destruct (D1 Sz) as (D2 & D3).
    assert (pc <= 10000) by (unfold largest_file, target_chunk_size in *; nia). assert (N.of_nat (length cs) <= pc); [|lia].
    pose proof (chunks_count (N.to_nat k) ltac:(lia) (N.to_nat size) (file_then size content) ltac:(lia)) as C. fold cs in C. rewrite Len in C.
    assert (Nk : N.to_nat k <> 0%nat) by lia. pose proof (Nat.div_mod (N.to_nat size) (N.to_nat k) Nk) as Dm. pose proof (Nat.mod_upper_bound (N.to_nat size) (N.to_nat k) Nk) as Dl.
    set (q := (N.to_nat size / N.to_nat k)%nat) in *. set (r := (N.to_nat size mod N.to_nat k)%nat) in *. clearbody q r.
    assert (N.of_nat q * k + N.of_nat r = size) by nia. destruct (Nat.eqb_spec r 0); nia. }
  assert (Ot : forall u, In u (uploads b) -> up_id u <> next_id b) by (intros u I; specialize (Fr u I); lia).
  pose proof (put_all_gives fp (next_id b) name (uploads b) Ot cs 1 [] (objects b) [] (next_id b + 1) ltac:(lia) ltac:(lia)) as G. cbn zeta in G.
  destruct G as (done & rest & _ & [(_ & i & Hi & [Fi|Fi])|(_ & Ln & Fs & E)]); [elim Fi; apply Fp; lia|lia|]. rewrite E. cbn [app]. rewrite app_nil_r.
  unfold Upload_Model.complete. cbn [uploads find up_id]. rewrite N.eqb_refl. rewrite assemble_nonempty by (destruct cs; [congruence|discriminate]). rewrite parts_numbered by (intros x I; cbn [up_parts]; apply find_numbered; exact I). rewrite ascending_numbered.
  assert (Mn : forallb (fun d => min_part <=? N.of_nat (length d)) (removelast cs) = true).
  { apply forallb_forall. intros d I. apply N.leb_le. pose proof (chunks_sizes (N.to_nat k) ltac:(lia) (N.to_nat size) (file_then size content) ltac:(lia)) as (A & B). fold cs in A, B.
    rewrite Forall_forall in B. rewrite (B d I). destruct (N.le_gt_cases size k) as [L|L]; [|specialize (Km L); lia].
    exfalso. pose proof (chunks_count (N.to_nat k) ltac:(lia) (N.to_nat size) (file_then size content) ltac:(lia)) as C. fold cs in C. rewrite Len in C.
    assert (length cs <= 1)%nat.
    { rewrite C. assert (Nk : N.to_nat k <> 0%nat) by lia. pose proof (Nat.div_mod (N.to_nat size) (N.to_nat k) Nk) as Dm. pose proof (Nat.mod_upper_bound (N.to_nat size) (N.to_nat k) Nk) as Dl.
      set (q := (N.to_nat size / N.to_nat k)%nat) in *. set (r := (N.to_nat size mod N.to_nat k)%nat) in *. clearbody q r. destruct (Nat.eqb_spec r 0); nia. }
    destruct cs as [|c [|c' cs']]; [destruct I|destruct I|cbn in *; lia]. }
  rewrite Mn. cbn [andb]. eexists. reflexivity.
Qed.
(** Not so: that an upload leaves nothing behind when it fails.  If a part fails, the ones before it stay in an upload that is never ended *)
Theorem C130_left_refuted : forall name size content f_complete f_part b, ids_fresh b -> 0 < size -> size <= N.of_nat (length content) -> f_part 1 = Served -> f_part 2 = Refused -> target_chunk_size < size ->
  exists b' u, upload_file (Some name) (Some (size, content)) Served f_complete f_part b = (b', Err) /\ uploads b' = u :: uploads b /\ up_key u = name /\ length (up_parts u) = 1%nat.
Proof.
  intros name size content fk fp b Fr Sz Le F1 F2 Tl. unfold Upload_Model.upload_file. destruct (N.ltb_spec (N.of_nat (length content)) size) as [|_]; [lia|].
  assert (exists k, chunk_size size = Ok k) as (k & K).
  { unfold chunk_size. destruct (div_ceil size target_chunk_size) as [pc| |] eqn:D; [|unfold div_ceil in D; destruct (_ =? 0); discriminate|discriminate]. apply ceil_bounds in D as (_ & _ & D & _). destruct (D Sz) as (_ & D0). cbn [obind]. unfold div_ceil. destruct (N.eqb_spec pc 0); [lia|eauto]. }
  rewrite K. destruct (served_sizes size k Sz K) as (Kt & Kp & _). cbn [create]. unfold chunks. destruct (N.eqb_spec k 0) as [|_]; [lia|]. fold (file_then size content).
  assert (Len : length (file_then size content) = N.to_nat size) by (unfold file_then; rewrite firstn_length; lia). rewrite Len.
  pose proof (chunks_concat (N.to_nat k) ltac:(lia) (N.to_nat size) (file_then size content) ltac:(lia)) as Cc.
  pose proof (chunks_sizes (N.to_nat k) ltac:(lia) (N.to_nat size) (file_then size content) ltac:(lia)) as (A & _).
  destruct (chunks_from (N.to_nat size) (N.to_nat k) (file_then size content)) as [|c1 [|c2 cs]].
  - exfalso. cbn in Cc. rewrite <- Cc in Len. cbn in Len. lia.
  - exfalso. cbn in Cc. rewrite app_nil_r in Cc. rewrite <- Cc in Len. inversion A; subst. lia.
  - assert (Ot : forall u, In u (uploads b) -> up_id u <> next_id b) by (intros u I; specialize (Fr u I); lia).
    cbn [Upload_Model.put_all]. rewrite F1. change (1 mod 2 ^ 32) with 1. unfold Upload_Model.put_part at 1. cbn [uploads existsb up_id]. rewrite N.eqb_refl. change ((1 <=? 1) && (1 <=? 10000)) with true. cbn [orb andb].
    cbn [map]. rewrite (add_others _ _ _ _ Ot). unfold add_part at 1. cbn [up_id up_key up_parts]. rewrite N.eqb_refl. change (1 + 1) with 2. rewrite F2. cbn [Upload_Model.put_part].
    eexists. eexists. split; [reflexivity|]. split; [reflexivity|]. split; reflexivity.
Qed.
(** Not so: that every file can be uploaded.  An empty one stops the program, and nothing else does *)
Theorem C130_empty_refuted : forall name file f_create f_complete f_part b, ids_fresh b ->
  snd (upload_file name file f_create f_complete f_part b) = Panic <-> name <> None /\ exists content, file = Some (0, content).
Proof.
  intros name file fc fk fp b Fr. split.
  - intros E. pose proof (upload_gives name file fc fk fp b Fr) as G. destruct (upload_file name file fc fk fp b) as (b', r) eqn:U. cbn [snd] in E. subst r. destruct name as [key|]; [|discriminate]. split; [discriminate|].
    destruct G as [(_ & _ & G)|(key' & sz & ct & k & cs & _ & _ & _ & _ & _ & _ & _ & _ & _ & _ & _ & _ & _ & [(_ & X)|(_ & X)])]; [exact (G eq_refl)|discriminate|discriminate].
  - intros (Nn & content & ->). destruct name as [key|]; [|congruence]. unfold Upload_Model.upload_file. destruct (N.ltb_spec (N.of_nat (length content)) 0); [lia|reflexivity].
Qed.
End S.
Print Assumptions C130_object.
Print Assumptions C130_whole.
Print Assumptions C130_served.
Print Assumptions C130_left_refuted.
Print Assumptions C130_empty_refuted.

(** A small file over an older one, beside another name; refused in the end, and with the last answer lost *)
Definition toy_bucket : bucket := {| objects := [([1], [7]); ([2], [8])]; uploads := [{| up_id := 4; up_key := [1]; up_parts := [(1, [0])] |}]; next_id := 5 |}.
Example C130_case : ids_fresh toy_bucket /\
  (exists b', upload_file (fun _ => 9) (Some [1]) (Some (3, [5; 6; 7; 8])) Served Served (fun _ => Served) toy_bucket = (b', Ok tt) /\ object b' [1] = Some [5; 6; 7] /\ object b' [2] = Some [8] /\ object b' [3] = None) /\
  (exists b', upload_file (fun _ => 9) (Some [1]) (Some (3, [5; 6; 7; 8])) Served Refused (fun _ => Served) toy_bucket = (b', Err) /\ object b' [1] = Some [7] /\ length (uploads b') = 2%nat) /\
  (exists b', upload_file (fun _ => 9) (Some [1]) (Some (3, [5; 6; 7; 8])) Served Lost (fun _ => Served) toy_bucket = (b', Err) /\ object b' [1] = Some [5; 6; 7]) /\
  snd (upload_file (fun _ => 9) (Some [1]) (Some (5, [5; 6; 7; 8])) Served Served (fun _ => Served) toy_bucket) = Err.
Proof.
  split; [intros u [<-|[]]; cbn; lia|]. split; [eexists; split; [vm_compute; reflexivity|]; repeat split|]. split; [eexists; split; [vm_compute; reflexivity|]; split; reflexivity|].
  split; [eexists; split; [vm_compute; reflexivity|]; reflexivity|]. vm_compute. reflexivity.
Qed.
