(** C129: the pages that list files. *)
From Coq Require Import String Ascii.
From Verif Require Import Base Header_Model Ping_Model Args_Model Args_Spec Args_Proofs Trie_Model FileIndex_Model FileIndex_Spec.

Lemma begins_iff p : forall s, begins p s = true <-> exists r, s = p ++ r.
Proof.
  induction p as [|x p IH]; intros s; cbn; [split; [intros _; eauto|auto]|]. destruct s as [|y s]; [split; [discriminate|intros (r & E); discriminate]|].
  rewrite andb_true_iff, N.eqb_eq, IH. split; [intros (-> & r & ->); eauto|intros (r & [= -> ->]); eauto].
Qed.
Lemma holds_iff p : forall s, holds p s = true <-> exists a b, s = a ++ p ++ b.
Proof.
  induction s as [|y s IH]; cbn [holds]; rewrite orb_true_iff, begins_iff.
  - split; [intros [(r & E)|E]; [exists [], r; exact E|discriminate]|]. intros (a & b & E). left. destruct a; [exists b; exact E|discriminate].
  - rewrite IH. split.
    + intros [(r & E)|(a & b & ->)]; [exists [], r; exact E|exists (y :: a), b; reflexivity].
    + intros ([|z a] & b & E); [left; exists b; exact E|right]. injection E as -> ->. eauto.
Qed.
Lemma marked_iff h : marked h = true <-> for_mainnet h.
Proof. apply holds_iff. Qed.
Lemma cut_at c (s : bytes) : ~ In c s \/ exists a b, s = a ++ c :: b /\ ~ In c a.
Proof.
  induction s as [|x s IH]; [left; intros []|]. destruct (N.eq_dec x c) as [->|Ne]; [right; exists [], s; split; [reflexivity|intros []]|].
  destruct IH as [N1|(a & b & -> & N1)]; [left; intros [E|I]; [congruence|contradiction]|right; exists (x :: a), b; split; [reflexivity|intros [E|I]; [congruence|contradiction]]].
Qed.
Lemma epoch_iff h n : epoch_index h = Ok n <-> numbered h n.
Proof.
  unfold epoch_index, numbered. destruct (cut_at 45 h) as [Nh|(a & r & -> & Na)].
  - rewrite split_no by exact Nh. split; [discriminate|]. intros (a & b & c & -> & _). elim Nh. apply in_elt.
  - rewrite split_app' by exact Na. destruct (cut_at 45 r) as [Nr|(b & d & -> & Nb)].
    + rewrite split_no by exact Nr. split.
      * destruct (parse_u64 r) eqn:E; [|discriminate]. intros [= ->]. exists a, r, []. rewrite app_nil_r. split; [reflexivity|]. split; [exact Na|]. split; [exact Nr|]. split; [now apply parse_u64_iff|now left].
      * intros (a' & b & c & E & Na' & Nb & T & C). assert (a = a' /\ r = b ++ c) as (<- & ->).
        { clear -E Na Na'. revert a' E Na'. induction a as [|x a IH]; intros [|y a'] E Na'; cbn in E.
          - injection E as ->. auto.
          - injection E as <- _. elim Na'. now left.
          - injection E as -> _. elim Na. now left.
          - injection E as -> E. destruct (IH (fun I => Na (or_intror I)) a' E (fun I => Na' (or_intror I))) as (-> & ->). auto. }
        destruct C as [->|(d & ->)]; [|elim Nr; apply in_elt]. rewrite app_nil_r. apply parse_u64_iff in T. rewrite T. reflexivity.
    + rewrite split_app' by exact Nb. split.
      * destruct (parse_u64 b) eqn:E; [|discriminate]. intros [= ->]. exists a, b, (45 :: d). split; [reflexivity|]. split; [exact Na|]. split; [exact Nb|]. split; [now apply parse_u64_iff|right; eauto].
      * intros (a' & b' & c & E & Na' & Nb' & T & C).
        assert (Un : forall (x y u v : bytes), x ++ 45 :: u = y ++ 45 :: v -> ~ In 45 x -> ~ In 45 y -> x = y /\ u = v).
        { clear. induction x as [|x xs IH]; intros [|y ys] u v E Nx Ny; cbn in E.
          - injection E as ->. auto.
          - injection E as <- _. elim Ny. now left.
          - injection E as -> _. elim Nx. now left.
          - injection E as -> E. destruct (IH ys u v E (fun I => Nx (or_intror I)) (fun I => Ny (or_intror I))) as (-> & ->). auto. }
        destruct (Un _ _ _ _ E Na Na') as (_ & E2). destruct C as [->|(d' & ->)].
        -- exfalso. rewrite app_nil_r in E2. apply Nb'. rewrite <- E2. apply in_elt.
        -- destruct (Un _ _ _ _ E2 Nb Nb') as (-> & _). apply parse_u64_iff in T. rewrite T. reflexivity.
Qed.
Lemma epoch_not_err h : epoch_index h <> Err.
Proof. unfold epoch_index. destruct (split 45 h) as [|a [|b l]]; try discriminate. destruct (parse_u64 b); discriminate. Qed.
Section S.
Variable resolve : bytes -> option bytes.
Notation link := (link resolve). Notation download_links := (download_links resolve).
Lemma link_ok h n u : link h = Ok (n, u) <-> numbered h n /\ resolve h = Some u.
Proof.
  unfold FileIndex_Model.link. rewrite <- epoch_iff. destruct (epoch_index h) as [m| |]; cbn [obind]; [|split; [discriminate|intros (E & _); discriminate]|split; [discriminate|intros (E & _); discriminate]].
  destruct (resolve h) as [v|]; split; [intros [= -> ->]; auto|intros ([= ->] & [= ->]); reflexivity|discriminate|intros (_ & E); discriminate].
Qed.
Lemma link_bad h : (link h = Panic <-> (forall n, ~ numbered h n) \/ resolve h = None) /\ link h <> Err.
Proof.
  unfold FileIndex_Model.link. pose proof (epoch_not_err h) as Ne. destruct (epoch_index h) as [m| |] eqn:E; cbn [obind]; [|congruence|].
  - pose proof (proj1 (epoch_iff h m) E) as Nu. destruct (resolve h) as [v|]; (split; [|discriminate]); split; [discriminate|intros [X|X]; [elim (X m Nu)|discriminate]|auto|auto].
  - split; [|discriminate]. split; [intros _; left|reflexivity]. intros n Nu. apply epoch_iff in Nu. congruence.
Qed.
Lemma links_ok hrefs : forall l, all_ok (map link (filter marked hrefs)) = Ok l ->
  (forall n u, last_link resolve hrefs n u <-> file l n = Some u) /\ (forall n, In n (map fst l) <-> linked hrefs n).
Proof.
  induction hrefs as [|h hs IH]; intros l E.
  - injection E as <-. split; [intros n u; split; [intros (b & h & a & X & _); destruct b; discriminate|discriminate]|]. intros n. split; [intros []|intros (h & [] & _)].
  - cbn [filter] in E. assert (Ap : forall x l n, file (x :: l) n = match file l n with Some u => Some u | None => if fst x =? n then Some (snd x) else None end).
    { clear. intros x l n. unfold file. cbn [rev]. induction (rev l) as [|y m IH]; cbn [app find]; [destruct (fst x =? n); reflexivity|]. destruct (fst y =? n); [reflexivity|exact IH]. }
    assert (Kf : forall l n, (exists u, file l n = Some u) <-> In n (map fst l)).
    { intros l0 n. unfold file. split.
      - intros (u & X). destruct (find _ (rev l0)) as [y|] eqn:F; [|discriminate]. apply find_some in F as (I & Q). apply N.eqb_eq in Q. subst n. apply in_map. apply in_rev. exact I.
      - intros I. apply in_map_iff in I as (y & <- & I). destruct (find (fun x => fst x =? fst y) (rev l0)) as [z|] eqn:F; [exists (snd z); reflexivity|]. apply in_rev in I. apply (find_none _ _ F) in I. rewrite N.eqb_refl in I. discriminate. }
    destruct (marked h) eqn:M.
    + cbn [map all_ok] in E. destruct (link h) as [[m v]| |] eqn:L; try discriminate. cbn [obind] in E. destruct (all_ok (map link (filter marked hs))) as [l'| |] eqn:A; try discriminate. injection E as <-.
      destruct (IH l' eq_refl) as (I1 & I2). apply link_ok in L as (Nu & Rs). apply marked_iff in M. split.
      * intros n u. rewrite Ap. cbn [fst snd]. split.
        -- intros (b & x & a & X & Fm & Nx & Rx & La). destruct b as [|y b]; injection X as X1 X2.
           ++ subst x a. apply epoch_iff in Nu, Nx. assert (m = n) by congruence. subst m. destruct (file l' n) as [u'|] eqn:Fl.
              ** apply I1 in Fl as (b' & x' & a' & -> & Fm' & Nx' & _). elim (La x' (in_elt _ _ _) Fm' Nx').
              ** rewrite N.eqb_refl. congruence.
           ++ subst y hs. assert (Fl : file l' n = Some u) by (apply I1; exists b, x, a; auto). rewrite Fl. reflexivity.
        -- destruct (file l' n) as [u'|] eqn:Fl.
           ++ intros [= ->]. apply I1 in Fl as (b & x & a & -> & R). exists (h :: b), x, a. split; [reflexivity|exact R].
           ++ destruct (m =? n) eqn:Mn; [|discriminate]. apply N.eqb_eq in Mn. subst m. intros [= ->]. exists [], h, hs. split; [reflexivity|]. split; [exact M|]. split; [exact Nu|]. split; [exact Rs|].
              intros x I Fm Nx. assert (J : In n (map fst l')) by (apply I2; exists x; auto). apply Kf in J as (w & J). congruence.
      * intros n. cbn [map fst In]. rewrite I2. split.
        -- intros [->|(x & I & R)]; [exists h; split; [now left|auto]|exists x; split; [now right|exact R]].
        -- intros (x & [<-|I] & R1 & R2); [left; apply epoch_iff in Nu, R2; congruence|right; exists x; auto].
    + destruct (IH l E) as (I1 & I2). assert (Nm : ~ for_mainnet h) by (intros X; apply marked_iff in X; congruence). split.
      * intros n u. rewrite <- I1. split.
        -- intros (b & x & a & X & Fm & R). destruct b as [|y b]; injection X as X1 X2; [subst x; contradiction|]. exists b, x, a. split; [exact X2|auto].
        -- intros (b & x & a & -> & R). exists (h :: b), x, a. split; [reflexivity|exact R].
      * intros n. rewrite I2. split; [intros (x & I & R); exists x; split; [now right|exact R]|]. intros (x & [<-|I] & R1 & R2); [contradiction|exists x; auto].
Qed.
(** A file is that of the last link for its number, for each of the four pages *)
Theorem C129_links : forall hrefs l, get_e2ss_files resolve (Some hrefs) = Ok l ->
  (forall n u, file l n = Some u <-> last_link resolve hrefs n u) /\ (forall n, (exists u, file l n = Some u) <-> linked hrefs n).
Proof.
  intros hrefs l E. destruct (links_ok hrefs l E) as (A & B). split; [intros; symmetry; apply A|]. intros n. rewrite <- B. unfold file. split.
  - intros (u & X). destruct (find _ (rev l)) as [y|] eqn:F; [|discriminate]. apply find_some in F as (I & Q). apply N.eqb_eq in Q. subst n. apply in_map. apply in_rev. exact I.
  - intros I. apply in_map_iff in I as (y & <- & I). destruct (find (fun x => fst x =? fst y) (rev l)) as [z|] eqn:F; [exists (snd z); reflexivity|]. apply in_rev in I. apply (find_none _ _ F) in I. rewrite N.eqb_refl in I. discriminate.
Qed.
Lemma file_index l n : (exists u, file l n = Some u) <-> In n (indices l).
Proof.
  unfold indices. rewrite nodup_In. unfold file. split.
  - intros (u & X). destruct (find _ (rev l)) as [y|] eqn:F; [|discriminate]. apply find_some in F as (I & Q). apply N.eqb_eq in Q. subst n. apply in_map. apply in_rev. exact I.
  - intros I. apply in_map_iff in I as (y & <- & I). destruct (find (fun x => fst x =? fst y) (rev l)) as [z|] eqn:F; [exists (snd z); reflexivity|]. apply in_rev in I. apply (find_none _ _ F) in I. rewrite N.eqb_refl in I. discriminate.
Qed.
Lemma full_range (l : list N) : NoDup l -> (forall i, (i < length l)%nat -> In (N.of_nat i) l) -> forall n, In n l -> n < N.of_nat (length l).
Proof.
  intros D H n I. set (r := map N.of_nat (seq 0 (length l))).
  assert (Dr : NoDup r). { unfold r. apply FinFun.Injective_map_NoDup; [intros a b E; lia|apply seq_NoDup]. }
  assert (Inc : incl r l). { intros x X. apply in_map_iff in X as (i & <- & X). apply in_seq in X. apply H. lia. }
  assert (Inc2 : incl l r). { apply NoDup_length_incl; [exact Dr|unfold r; rewrite map_length, seq_length; lia|exact Inc]. }
  apply Inc2 in I. apply in_map_iff in I as (i & <- & X). apply in_seq in X. lia.
Qed.
Lemma check_iff l l' : check_epochs l = Ok l' <-> l' = l /\ (0 < length (indices l))%nat /\ forall n, (exists u, file l n = Some u) <-> n < N.of_nat (length (indices l)).
Proof.
  unfold check_epochs. destruct (Nat.eqb_spec (length (indices l)) 0) as [Z|Z]; [split; [discriminate|intros (_ & X & _); lia]|].
  destruct (forallb _ _) eqn:F.
  - rewrite forallb_forall in F. split; [|intros (-> & _); reflexivity]. intros [= ->]. split; [reflexivity|]. split; [lia|].
    assert (H : forall i, (i < length (indices l'))%nat -> In (N.of_nat i) (indices l')).
    { intros i L. assert (I : In i (seq 0 (length (indices l')))) by (apply in_seq; lia). specialize (F i I). apply file_index. destruct (file l' (N.of_nat i)); [eauto|discriminate]. }
    intros n. rewrite file_index. split; [intros I; apply (full_range (indices l') (NoDup_nodup _ _) H n I)|]. intros L. replace n with (N.of_nat (N.to_nat n)) by lia. apply H. lia.
  - split; [discriminate|]. intros (_ & _ & X). exfalso. assert (forallb (fun i => match file l (N.of_nat i) with Some _ => true | None => false end) (seq 0 (length (indices l))) = true); [|congruence].
    apply forallb_forall. intros i I. apply in_seq in I. destruct (proj2 (X (N.of_nat i))) as (u & ->); [lia|reflexivity].
Qed.
Lemma check_no_panic l : check_epochs l <> Panic.
Proof. unfold check_epochs. destruct (_ =? 0)%nat; [discriminate|]. destruct (forallb _ _); discriminate. Qed.
(** The lists of era and e2hs files have the files from number 0 on, none is left out; they are the links of the page *)
Theorem C129_consecutive : forall page l, get_era_files resolve page = Ok l \/ get_e2hs_files resolve page = Ok l ->
  exists hrefs count, page = Some hrefs /\ 0 < count /\ (forall n, (exists u, file l n = Some u) <-> n < count) /\ (forall n, linked hrefs n <-> n < count) /\
  forall n u, file l n = Some u <-> last_link resolve hrefs n u.
Proof.
  intros page l H. assert (E : obind (download_links page) check_epochs = Ok l) by (destruct H; assumption). clear H.
  destruct page as [hrefs|]; [|discriminate]. destruct (download_links (Some hrefs)) as [l0| |] eqn:D; try discriminate. cbn [obind] in E. apply check_iff in E as (-> & P & C).
  destruct (C129_links hrefs l0 D) as (A & B). exists hrefs, (N.of_nat (length (indices l0))). split; [reflexivity|]. split; [lia|]. split; [exact C|]. split; [intros n; rewrite <- B; apply C|exact A].
Qed.
(** ... and of era1 files there are exactly those from 0 to 1896 *)
Theorem C129_era1 : forall page l, get_era1_files resolve page = Ok l ->
  exists hrefs, page = Some hrefs /\ (forall n, (exists u, file l n = Some u) <-> n < 1897) /\ (forall n, linked hrefs n <-> n < 1897) /\
  forall n u, file l n = Some u <-> last_link resolve hrefs n u.
Proof.
  intros page l E. unfold get_era1_files in E. destruct page as [hrefs|]; [|discriminate]. destruct (download_links (Some hrefs)) as [l0| |] eqn:D; try discriminate. cbn [obind] in E.
  destruct (Nat.eqb_spec (length (indices l0)) era1_file_count) as [L|]; [|discriminate]. apply check_iff in E as (-> & P & C). rewrite L in C. change (N.of_nat era1_file_count) with 1897 in C.
  destruct (C129_links hrefs l0 D) as (A & B). exists hrefs. split; [reflexivity|]. split; [exact C|]. split; [intros n; rewrite <- B; apply C|exact A].
Qed.
(** Every page whose links are good and whose numbers go from 0 on without a gap is taken *)
Theorem C129_complete : forall hrefs count, 0 < count -> (forall h, In h hrefs -> ~ bad_link resolve h) -> (forall n, linked hrefs n <-> n < count) ->
  (exists l, get_era_files resolve (Some hrefs) = Ok l) /\ (exists l, get_e2hs_files resolve (Some hrefs) = Ok l) /\ (count = 1897 -> exists l, get_era1_files resolve (Some hrefs) = Ok l).
Proof.
  intros hrefs count P G L.
  assert (exists l, download_links (Some hrefs) = Ok l) as (l & D).
  { unfold FileIndex_Model.download_links. clear L. induction hrefs as [|h hs IH]; [exists []; reflexivity|]. destruct IH as (l & E); [intros x I; apply G; now right|]. cbn [filter]. destruct (marked h) eqn:M; [|eauto].
    cbn [map all_ok]. destruct (link_bad h) as (B & Ne). destruct (link h) as [y| |]; [|congruence|].
    - cbn [obind]. rewrite E. cbn [obind]. eauto.
    - elim (G h); [now left|]. split; [now apply marked_iff|now apply B]. }
  destruct (C129_links hrefs l D) as (_ & B).
  assert (K : forall n, In n (indices l) <-> n < count) by (intros n; rewrite <- file_index, B; apply L).
  assert (Len : length (indices l) = N.to_nat count).
  { assert (X : length (indices l) = length (map N.of_nat (seq 0 (N.to_nat count)))); [|rewrite map_length, seq_length in X; exact X].
    apply Nat.le_antisymm; apply NoDup_incl_length.
    - apply NoDup_nodup.
    - intros n I. apply K in I. apply in_map_iff. exists (N.to_nat n). split; [lia|apply in_seq; lia].
    - apply FinFun.Injective_map_NoDup; [intros a b E; lia|apply seq_NoDup].
    - intros n I. apply in_map_iff in I as (i & <- & I). apply in_seq in I. apply K. lia. }
  assert (C : check_epochs l = Ok l). { apply check_iff. split; [reflexivity|]. split; [lia|]. intros n. rewrite B, L, Len. lia. }
  unfold get_era_files, get_e2hs_files, get_era1_files. rewrite D. cbn [obind]. split; [exists l; exact C|]. split; [exists l; exact C|]. intros ->. rewrite Len. change (N.to_nat 1897 =? era1_file_count)%nat with true. cbn iota. eexists; exact C.
Qed.
Lemma links_panic hrefs : download_links (Some hrefs) = Panic <-> exists h, In h hrefs /\ bad_link resolve h.
Proof.
  unfold FileIndex_Model.download_links. induction hrefs as [|h hs IH]; [split; [discriminate|intros (h & [] & _)]|]. cbn [filter]. destruct (marked h) eqn:M.
  - pose proof (proj1 (marked_iff h) M) as Fm. cbn [map all_ok]. destruct (link_bad h) as (B & Ne). destruct (link h) as [y| |]; [|congruence|].
    + cbn [obind]. assert (Gd : ~ bad_link resolve h) by (intros (_ & X); apply B in X; discriminate).
      assert (X : obind (all_ok (map link (filter marked hs))) (fun b => Ok (y :: b)) = Panic <-> all_ok (map link (filter marked hs)) = Panic) by (destruct (all_ok _); cbn; split; congruence).
      rewrite X, IH. split; [intros (x & I & Q); exists x; split; [now right|exact Q]|]. intros (x & [<-|I] & Q); [contradiction|eauto].
    + split; [intros _; exists h; split; [now left|split; [exact Fm|now apply B]]|reflexivity].
  - rewrite IH. split; [intros (x & I & Q); exists x; split; [now right|exact Q]|]. intros (x & [<-|I] & Q); [destruct Q as (Q & _); apply marked_iff in Q; congruence|eauto].
Qed.
(** One bad link stops the program, for each of the pages; nothing else does *)
Theorem C129_panic : forall page, let bad := exists hrefs h, page = Some hrefs /\ In h hrefs /\ bad_link resolve h in
  (get_era_files resolve page = Panic <-> bad) /\ (get_e2hs_files resolve page = Panic <-> bad) /\ (get_era1_files resolve page = Panic <-> bad) /\ (get_e2ss_files resolve page = Panic <-> bad).
Proof.
  intros page bad. assert (D : download_links page = Panic <-> bad).
  { unfold bad. destruct page as [hrefs|]; [|split; [discriminate|intros (x & h & E & _); discriminate]]. rewrite links_panic. split; [intros (h & H); eauto|intros (x & h & [= <-] & H); eauto]. }
  unfold get_era_files, get_e2hs_files, get_era1_files, get_e2ss_files. rewrite <- D.
  destruct (download_links page) as [l| |]; cbn [obind]; [|tauto|tauto].
  pose proof (check_no_panic l). destruct (_ =? era1_file_count)%nat; repeat split; intros; try congruence.
Qed.
(** The page of e2ss files is taken if it comes and has no bad link; nothing else is asked of it *)
Theorem C129_e2ss : forall page, (exists l, get_e2ss_files resolve page = Ok l) <-> exists hrefs, page = Some hrefs /\ forall h, In h hrefs -> ~ bad_link resolve h.
Proof.
  intros [hrefs|]; [|split; [intros (l & E); discriminate|intros (x & E & _); discriminate]]. unfold get_e2ss_files. split.
  - intros (l & E). exists hrefs. split; [reflexivity|]. intros h I B. assert (X : download_links (Some hrefs) = Panic) by (apply links_panic; eauto). congruence.
  - intros (x & [= <-] & G). assert (N1 : download_links (Some hrefs) <> Panic) by (intros X; apply links_panic in X as (h & I & B); exact (G h I B)).
    assert (N2 : download_links (Some hrefs) <> Err).
    { unfold FileIndex_Model.download_links. induction (filter marked hrefs) as [|h hs IH]; [discriminate|]. cbn [map all_ok]. destruct (link_bad h) as (_ & Ne). destruct (link h); [|congruence|discriminate]. cbn [obind]. destruct (all_ok (map link hs)); [discriminate|exact IH|discriminate]. }
    destruct (download_links (Some hrefs)) as [l| |]; [eauto|congruence|congruence].
Qed.
Lemma digits_no_slash s n : digits s n -> ~ In 47 s.
Proof. induction 1 as [d L|s n d D IH L]; intros I; [destruct I as [I|[]]; lia|]. apply in_app_iff in I as [I|[I|[]]]; [contradiction|lia]. Qed.
Lemma first_dash : forall (x y u v : bytes), x ++ 45 :: u = y ++ 45 :: v -> ~ In 45 x -> ~ In 45 y -> x = y /\ u = v.
Proof.
  induction x as [|x xs IH]; intros [|y ys] u v E Nx Ny; cbn in E.
  - injection E as ->. auto.
  - injection E as <- _. elim Ny. now left.
  - injection E as -> _. elim Nx. now left.
  - injection E as -> E. destruct (IH ys u v E (fun I => Nx (or_intror I)) (fun I => Ny (or_intror I))) as (-> & ->). auto.
Qed.
Lemma slash_first : forall (b b' c c' : bytes), b ++ 47 :: c = b' ++ c' -> ~ In 45 b -> (c' = [] \/ exists d, c' = 45 :: d) -> In 47 b'.
Proof.
  induction b as [|x b IH]; intros [|y b'] c c' E Nb C; cbn in E.
  - destruct C as [->|(d & ->)]; discriminate E.
  - injection E as <- _. now left.
  - destruct C as [->|(d & ->)]; [discriminate|]. injection E as -> _. elim Nb. now left.
  - injection E as -> E. right. exact (IH b' c c' E (fun I => Nb (or_intror I)) C).
Qed.
(** Not so: that every link to a file is understood.  If there is a dash in the path before the name, the page stops the program *)
Theorem C129_dash_refuted : forall hrefs a b c, In (a ++ 45 :: b ++ 47 :: c) hrefs -> for_mainnet (a ++ 45 :: b ++ 47 :: c) -> ~ In 45 a -> ~ In 45 b ->
  get_era_files resolve (Some hrefs) = Panic /\ get_e2ss_files resolve (Some hrefs) = Panic.
Proof.
  intros hrefs a b c I Fm Na Nb.
  assert (B : exists hrefs' h, Some hrefs = Some hrefs' /\ In h hrefs' /\ bad_link resolve h).
  { exists hrefs, (a ++ 45 :: b ++ 47 :: c). split; [reflexivity|]. split; [exact I|]. split; [exact Fm|]. left. intros n (a' & b' & c' & E & Na' & Nb' & T & C).
    destruct (first_dash _ _ _ _ E Na Na') as (_ & E2). pose proof (slash_first b b' c c' E2 Nb C) as S. destruct T as (_ & [T|(r & -> & T)]); [exact (digits_no_slash _ _ T S)|].
    destruct S as [S|S]; [discriminate|exact (digits_no_slash _ _ T S)]. }
  destruct (C129_panic (Some hrefs)) as (P1 & _ & _ & P2). split; [now apply P1|now apply P2].
Qed.
(** Shuffled, every era1 file is there once *)
Theorem C129_shuffled : forall order page us, (forall l, Permutation (order l) l) -> get_shuffled_era1_files resolve order page = Ok us ->
  exists l ns, get_era1_files resolve page = Ok l /\ Permutation ns (map N.of_nat (seq 0 1897)) /\ Forall2 (fun n u => file l n = Some u) ns us.
Proof.
  intros order page us O E. unfold get_shuffled_era1_files in E. destruct (get_era1_files resolve page) as [l| |] eqn:G; try discriminate. cbn [omap] in E. injection E as <-.
  destruct (C129_era1 page l G) as (_ & _ & F & _). exists l, (order (indices l)). split; [reflexivity|]. split.
  - rewrite (O (indices l)). apply NoDup_Permutation; [apply NoDup_nodup|apply FinFun.Injective_map_NoDup; [intros a b X; lia|apply seq_NoDup]|].
    intros n. rewrite <- file_index, F, in_map_iff. split; [intros L; exists (N.to_nat n); split; [lia|apply in_seq; lia]|]. intros (i & <- & I). apply in_seq in I. lia.
  - assert (H : forall n, In n (order (indices l)) -> exists u, file l n = Some u) by (intros n I; apply file_index; eapply Permutation_in; [apply O|exact I]).
    revert H. generalize (order (indices l)). intros ns. induction ns as [|n ns IH]; intros H; cbn [flat_map]; [constructor|]. destruct (H n) as (u & U); [now left|]. rewrite U. cbn [app]. constructor; [exact U|]. apply IH. intros m I. apply H. now right.
Qed.
End S.
Print Assumptions C129_links.
Print Assumptions C129_consecutive.
Print Assumptions C129_era1.
Print Assumptions C129_complete.
Print Assumptions C129_panic.
Print Assumptions C129_e2ss.
Print Assumptions C129_dash_refuted.
Print Assumptions C129_shuffled.

(** A page of two files, one of them linked twice, with another link and one that is for another network *)
Definition toy_page : list bytes := [lit "mainnet-00001-aaaa.era"; lit "../"; lit "mainnet-00000-bbbb.era"; lit "sepolia-00000-cccc.era"; lit "mainnet-00001-dddd.era"].
Definition toy_resolve (h : bytes) : option bytes := Some (lit "https://host/" ++ h).
Example C129_case :
  (exists l, get_era_files toy_resolve (Some toy_page) = Ok l /\ file l 1 = Some (lit "https://host/mainnet-00001-dddd.era") /\ file l 0 = Some (lit "https://host/mainnet-00000-bbbb.era") /\ file l 2 = None) /\
  get_era1_files toy_resolve (Some toy_page) = Err /\ get_era_files toy_resolve (Some [lit "mainnet-00001-aaaa.era"]) = Err /\ get_era_files toy_resolve (Some []) = Err /\
  get_e2ss_files toy_resolve (Some []) = Ok [] /\ get_e2ss_files toy_resolve (Some [lit "my-files/mainnet-00001-aaaa.era"]) = Panic.
Proof. split; [eexists; split; [vm_compute; reflexivity|]; split; [vm_compute; reflexivity|]; split; vm_compute; reflexivity|]. repeat (split; [vm_compute; reflexivity|]). vm_compute. reflexivity. Qed.
