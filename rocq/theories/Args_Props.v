(** C105: arguments of the command lines. *)
From Coq Require Import String Ascii.
From Verif Require Import Base Hex_Model Hex_Spec Hex_Proofs Ping_Model Capacity_Model Rewards_Model Trie_Model StateContent_Proofs Builders_Props Walker_Model
  Header_Model LegacyHistory_Model EraFiles_Model E2hsWriter_Model E2hsBridge_Model Args_Model Args_Spec Args_Proofs.

(** ** The modes of the bridge *)
Lemma Forall2_weaken {A B} (P Q : A -> B -> Prop) l r : (forall x y, P x y -> Q x y) -> Forall2 P l r -> Forall2 Q l r.
Proof. intros H F. induction F; constructor; auto. Qed.
Lemma all_parsed l : forall r, all_ok (map (fun p => match parse_u64 p with Some n => Ok n | None => Panic end) l) = Ok r <-> Forall2 number_text l r.
Proof.
  intros r. split.
  - intros E. apply all_ok_inv in E. eapply Forall2_weaken; [|exact E]. intros p n H. cbv beta in H. apply parse_u64_iff. destruct (parse_u64 p); [congruence|discriminate].
  - intros F. apply all_ok_intro. eapply Forall2_weaken; [|exact F]. intros p n H. apply parse_u64_iff in H. cbv beta. rewrite H. reflexivity.
Qed.
Lemma all_panic l : all_ok (map (fun p => match parse_u64 p with Some n => Ok n | None => Panic end) l) = Panic <-> exists p, In p l /\ forall n, ~ number_text p n.
Proof.
  induction l as [|p l IH]; cbn [map all_ok].
  - split; [discriminate|]. intros (p & [] & _).
  - destruct (parse_u64 p) as [n|] eqn:E; cbn [obind].
    + destruct (all_ok (map _ l)) as [r| |] eqn:R.
      * split; [discriminate|]. intros (q & [<-|I] & H); [apply parse_u64_iff in E; destruct (H _ E)|]. discriminate (proj2 IH (ex_intro _ q (conj I H))).
      * split; [discriminate|]. intros (q & [<-|I] & H); [apply parse_u64_iff in E; destruct (H _ E)|]. discriminate (proj2 IH (ex_intro _ q (conj I H))).
      * split; [intros _|reflexivity]. destruct (proj1 IH eq_refl) as (q & I & H). exists q. split; [right; exact I|exact H].
    + split; [intros _|reflexivity]. exists p. split; [left; reflexivity|]. intros n H. apply parse_u64_iff in H. congruence.
Qed.
Lemma no_dash s n : number_text s n -> ~ In dash s.
Proof. intros T I. destruct (number_text_chars _ _ _ T I) as [E|E]; unfold dash in E; lia. Qed.
Lemma no_slash s n : number_text s n -> ~ In slash s.
Proof. intros T I. destruct (number_text_chars _ _ _ T I) as [E|E]; unfold slash in E; lia. Qed.

Lemma mode_type_iff s x y : mode_type s = Ok (x, y) <-> exists a b, s = 114 :: a ++ dash :: b /\ number_text a x /\ number_text b y /\ x <= y.
Proof.
  unfold mode_type. split.
  - destruct s as [|c r]; [discriminate|]. destruct (128 <=? c); [discriminate|]. destruct (N.eqb_spec c 114) as [->|]; [|discriminate].
    destruct (all_ok _) as [l| |] eqn:E; cbn [obind]; try discriminate. apply all_parsed in E. intros H.
    destruct l as [|x' [|y' [|]]]; try discriminate. destruct (N.ltb_spec y' x'); [discriminate|]. injection H as <- <-.
    inversion E as [|a ? r' ? A R Ea]; subst. inversion R as [|b ? r'' ? B R' Eb]; subst. inversion R'; subst. symmetry in Ea. apply split_two in Ea as (-> & _).
    exists a, b. tauto.
  - intros (a & b & -> & A & B & L). change (128 <=? 114) with false. change (114 =? 114) with true. cbv iota.
    rewrite (proj2 (split_two dash (a ++ dash :: b) a b)) by (split; [reflexivity|split; [exact (no_dash _ _ A)|exact (no_dash _ _ B)]]).
    match goal with |- context [all_ok ?t] => assert (all_ok t = Ok [x; y]) as -> by (apply (all_parsed [a; b]); constructor; [exact A|constructor; [exact B|constructor]]) end. cbn [obind]. rewrite (proj2 (N.ltb_ge _ _) L). reflexivity.
Qed.
Lemma mode_type_panic s : mode_type s = Panic <->
  (exists c r, s = c :: r /\ 128 <= c) \/ exists l p, separated dash l (tl s) /\ hd 0 s = 114 /\ In p l /\ forall n, ~ number_text p n.
Proof.
  unfold mode_type. destruct s as [|c r].
  - split; [discriminate|]. intros [(c & r & E & _)|(l & p & _ & E & _)]; discriminate.
  - cbn [hd tl]. destruct (N.leb_spec 128 c) as [G|G].
    + split; [|reflexivity]. intros _. left. exists c, r. split; [reflexivity|exact G].
    + destruct (N.eqb_spec c 114) as [->|Ne].
      * split.
        -- intros H. right. destruct (all_ok _) as [l| |] eqn:E; cbn [obind] in H.
           ++ destruct l as [|x [|y [|]]]; try discriminate. destruct (y <? x); discriminate.
           ++ discriminate.
           ++ apply all_panic in E as (p & I & Np). exists (split dash r), p. split; [apply split_separated|]. tauto.
        -- intros [(c & r' & E & L)|(l & p & Sp & _ & I & Np)]; [injection E as <- <-; lia|]. apply separated_split in Sp. subst l.
           rewrite (proj2 (all_panic _)); [reflexivity|]. exists p. tauto.
      * split; [discriminate|]. intros [(c' & r' & E & L)|(l & p & _ & E & _)]; [injection E as <- <-; lia|congruence].
Qed.

Lemma lit_no_colon s : forallb (fun c => negb (c =? colon)) (lit s) = true -> ~ In colon (lit s).
Proof. intros F I. rewrite forallb_forall in F. specialize (F _ I). rewrite N.eqb_refl in F. discriminate. Qed.
Lemma eqb_lit s t : s <> lit t -> beqb s (lit t) = false.
Proof. apply beqb_false. Qed.
(** A mode is accepted exactly if it is written as the documentation says. *)
Theorem C105_mode : forall (s : bytes) (m : bridge_mode), mode_from_str s = Ok m <-> mode_text s m.
Proof.
  intros s m. unfold mode_from_str. split.
  - destruct (beqb s (lit "latest")) eqn:E1; [intros H; injection H as <-; apply beqb_spec in E1 as ->; constructor|].
    destruct (beqb s (lit "e2hs")) eqn:E2; [intros H; injection H as <-; apply beqb_spec in E2 as ->; constructor|].
    destruct (beqb s (lit "ephemeral-history")) eqn:E3; [intros H; injection H as <-; apply beqb_spec in E3 as ->; constructor|].
    destruct (split_once colon s) as [[p v]|] eqn:Es; [|discriminate]. apply split_once_iff in Es as [-> _].
    destruct (beqb p (lit "single")) eqn:E4.
    + apply beqb_spec in E4 as ->. destruct (mode_type v) as [[x y]| |] eqn:T; cbn [omap fst snd]; try discriminate. intros H. injection H as <-.
      apply mode_type_iff in T as (a & b & -> & A & B & L). exact (text_single a b x y A B L).
    + destruct (beqb p (lit "snapshot")) eqn:E5; [|discriminate]. apply beqb_spec in E5 as ->. destruct (parse_u64 v) as [n|] eqn:P; [|discriminate].
      intros H. injection H as <-. apply parse_u64_iff in P. exact (text_snapshot v n P).
  - intros [| | |a b x y A B L|a x A]; try reflexivity.
    + change (lit "single:r" ++ a ++ lit "-" ++ b)%list with (lit "single" ++ colon :: 114 :: a ++ dash :: b)%list.
      rewrite !eqb_lit by (vm_compute; congruence).
      rewrite (proj2 (split_once_iff colon _ (lit "single") (114 :: a ++ dash :: b))) by (split; [reflexivity|apply lit_no_colon; reflexivity]).
      rewrite beqb_refl, (proj2 (mode_type_iff _ x y)) by (exists a, b; tauto). reflexivity.
    + change (lit "snapshot:" ++ a)%list with (lit "snapshot" ++ colon :: a)%list.
      rewrite !(eqb_lit (lit "snapshot" ++ colon :: a)) by (vm_compute; congruence).
      rewrite (proj2 (split_once_iff colon _ (lit "snapshot") a)) by (split; [reflexivity|apply lit_no_colon; reflexivity]).
      rewrite eqb_lit by (vm_compute; congruence). rewrite beqb_refl, (proj2 (parse_u64_iff a x)) by exact A. reflexivity.
Qed.
Print Assumptions C105_mode.
(** Every mode can be given. *)
Theorem C105_written : forall m, mode_ok m -> mode_from_str (write_mode m) = Ok m.
Proof.
  intros m H. apply C105_mode. destruct m as [| | |x y|x]; cbn [write_mode mode_ok] in *; try constructor.
  - apply write_text. lia.
  - apply write_text. lia.
  - lia.
  - apply write_text. lia.
Qed.
Print Assumptions C105_written.
(** Some arguments stop the program with a panic instead of a message: those for the mode "single" with a part that is no number or with
    another character than an ASCII one in front; no others do. *)
Theorem C105_mode_panics_refuted : forall s, mode_from_str s = Panic <->
  exists t, s = (lit "single:" ++ t)%list /\
    ((exists c r, t = c :: r /\ 128 <= c) \/ exists l p, separated dash l (tl t) /\ hd 0 t = 114 /\ In p l /\ forall n, ~ number_text p n).
Proof.
  intros s. unfold mode_from_str. split.
  - destruct (beqb s (lit "latest")); [discriminate|]. destruct (beqb s (lit "e2hs")); [discriminate|]. destruct (beqb s (lit "ephemeral-history")); [discriminate|].
    destruct (split_once colon s) as [[p v]|] eqn:Es; [|discriminate]. apply split_once_iff in Es as [-> _].
    destruct (beqb p (lit "single")) eqn:E4.
    + apply beqb_spec in E4 as ->. destruct (mode_type v) as [[x y]| |] eqn:T; cbn [omap]; try discriminate. intros _. exists v. split; [reflexivity|]. apply mode_type_panic. exact T.
    + destruct (beqb p (lit "snapshot")); [|discriminate]. destruct (parse_u64 v); discriminate.
  - intros (t & -> & H). apply mode_type_panic in H. change (lit "single:" ++ t)%list with (lit "single" ++ colon :: t)%list.
    rewrite !eqb_lit by (vm_compute; congruence).
    rewrite (proj2 (split_once_iff colon _ (lit "single") t)) by (split; [reflexivity|apply lit_no_colon; reflexivity]).
    rewrite beqb_refl, H. reflexivity.
Qed.
Print Assumptions C105_mode_panics_refuted.
Example C105_mode_example :
  mode_from_str (lit "single:r10-12") = Ok (Single 10 12) /\ mode_from_str (lit "single:r+7-007") = Ok (Single 7 7) /\ mode_from_str (lit "single:r12-10") = Err /\
  mode_from_str (lit "single:r10") = Err /\ mode_from_str (lit "single:r10-") = Panic /\ mode_from_str (lit "single:rx-1") = Panic /\
  mode_from_str (lit "single:" ++ [195; 164])%list = Panic /\ mode_from_str (lit "snapshot:18446744073709551615") = Ok (Snapshot 18446744073709551615) /\
  mode_from_str (lit "snapshot:18446744073709551616") = Err /\ mode_from_str (lit "latest:") = Err /\
  write_mode (Single 10 12) = lit "single:r10-12" /\ write 18446744073709551615 = lit "18446744073709551615".
Proof. vm_compute. repeat split. Qed.

(** ** The range of the bridge from history files *)
Theorem C105_range : forall s r, range_from_str s = Ok r <-> range_text s r.
Proof.
  intros s r. unfold range_from_str. split.
  - destruct (split dash s) as [|a [|b [|]]] eqn:E; try discriminate. apply split_two in E as (-> & _).
    destruct (parse_u64 a) as [x|] eqn:A; [|discriminate]. apply parse_u64_iff in A. destruct b as [|c b].
    + intros H. injection H as <-. exact (text_open a x A).
    + destruct (parse_u64 (c :: b)) as [y|] eqn:B; [|discriminate]. apply parse_u64_iff in B. intros H. injection H as <-. exact (text_closed a (c :: b) x y A B).
  - intros [a x A|a b x y A B].
    + change (a ++ lit "-")%list with (a ++ dash :: []). rewrite (proj2 (split_two dash _ a [])) by (split; [reflexivity|split; [exact (no_dash _ _ A)|intros []]]).
      rewrite (proj2 (parse_u64_iff a x) A). reflexivity.
    + change (a ++ lit "-" ++ b)%list with (a ++ dash :: b)%list. rewrite (proj2 (split_two dash _ a b)) by (split; [reflexivity|split; [exact (no_dash _ _ A)|exact (no_dash _ _ B)]]).
      rewrite (proj2 (parse_u64_iff a x) A). pose proof (number_text_not_nil _ _ B). destruct b; [congruence|]. rewrite (proj2 (parse_u64_iff _ y) B). reflexivity.
Qed.
Print Assumptions C105_range.

Section Files.
Context {tx rct wdl : Type}.
Context (HC : codec full_header) (HL : codec (list full_header)) (TC : codec tx) (RC : codec rct) (WC : codec wdl).
Context (keccak : bytes -> bytes) (trie_root : list bytes -> bytes) (sha : bytes -> bytes) (fk : forks).
Context (debug : bool) (pre_merge_roots roots_acc : list bytes).
Context (hp_unpack : bytes -> option (full_header * header_proof)) (b_unpack : bytes -> option (@block_body tx wdl)) (r_unpack : bytes -> option (list rct)).
Notation launch := (launch HC HL TC RC WC keccak trie_root sha fk debug pre_merge_roots roots_acc hp_unpack b_unpack r_unpack).
(** A range that ends before it begins is accepted; the bridge then gossips nothing at all and says that it is done. *)
Theorem C105_empty_range_refuted : forall first last, last < first < 2 ^ 64 ->
  range_from_str (write first ++ lit "-" ++ write last)%list = Ok {| range_start := first; range_stop := Some last |} /\
  forall keys get shuffle todo, (forall l, Permutation l (shuffle l)) -> launch keys get first (Some last) shuffle = Ok todo ->
    forall e b, ~ In (Spawn e b) todo.
Proof.
  intros first last [L B]. split; [apply C105_range; constructor; apply write_text; lia|].
  intros keys get shuffle todo P E e b I. unfold E2hsBridge_Model.launch, range_end in E. cbn [obind] in E.
  destruct (block_range_to_epochs debug first last) as [l| |] eqn:R; cbn [omap] in E; try discriminate. injection E as <-.
  assert (forall e' range, In (e', range) l -> exists x y, range = Some (x, y) /\ y < x) as Hl.
  { intros e' range H. unfold block_range_to_epochs in R. apply all_ok_inv in R. 
    assert (exists e0, epoch_entry debug first last e0 = Ok (e', range)) as (e0 & E0).
    { clear - R H. induction R as [|a b0 la lb Ra R IH]; [destruct H|]. destruct H as [->|H]; [exists a; exact Ra|exact (IH H)]. }
    unfold epoch_entry in E0. destruct (debug && _); [discriminate|].
    destruct (N.leb_spec first (e0 * 8192)) as [F|F], (N.leb_spec (e0 * 8192 + 8191) last) as [G|G]; cbn [andb] in E0; try lia; injection E0 as <- <-;
      (eexists _, _; split; [reflexivity|]); lia. }
  assert (forall e' range, In (e', range) (shuffle l) -> exists x y, range = Some (x, y) /\ y < x) as Hs.
  { intros e' range H. apply (Hl e'). eapply Permutation_in; [apply Permutation_sym, P|exact H]. }
  clear Hl P R. revert I. generalize (@None N) as prev. induction (shuffle l) as [|[e' range] r IH]; intros prev I; cbn [epoch_loop] in I.
  - apply in_app_or in I as [I|[I|[]]]; [|discriminate]. destruct prev; [destruct I as [I|[]]; discriminate|destruct I].
  - apply in_app_or in I as [I|I].
    + destruct (Hs e' range (or_introl eq_refl)) as (x & y & -> & Lt). unfold epoch_actions in I. destruct (in_dec N.eq_dec e' keys); [|destruct I as [I|[]]; discriminate].
      destruct (obind (get e') _) as [[ts fine]| |]; [|destruct I as [I|[]]; discriminate|destruct I as [I|[]]; discriminate].
      apply in_app_or in I as [I|I]; [|destruct fine; [destruct I|destruct I as [I|[]]; discriminate]].
      apply in_flat_map in I as (t & _ & I). unfold block_actions in I.
      assert ((number (fst (u_header t)) <? x) || (y <? number (fst (u_header t))) = true) as Sk.
      { destruct (N.ltb_spec (number (fst (u_header t))) x); [reflexivity|]. apply N.ltb_lt. lia. }
      cbv zeta in I. rewrite Sk in I. destruct I.
    + apply in_app_or in I as [I|I]; [destruct prev; [destruct I as [I|[]]; discriminate|destruct I]|].
      apply (IH (fun a c H => Hs a c (or_intror H)) _ I).
Qed.
End Files.
Print Assumptions C105_empty_range_refuted.
Example C105_range_example :
  range_from_str (lit "0-100") = Ok {| range_start := 0; range_stop := Some 100 |} /\ range_from_str (lit "0-") = Ok {| range_start := 0; range_stop := None |} /\
  range_from_str (lit "100-0") = Ok {| range_start := 100; range_stop := Some 0 |} /\ range_from_str (lit "-1") = Err /\ range_from_str (lit "1-2-3") = Err.
Proof. vm_compute. repeat split. Qed.

(** ** Which part of the contents a bridge gossips *)
Theorem C105_id : forall s id total, id_from_str s = Ok (id, total) <->
  exists a b, s = (a ++ lit "/" ++ b)%list /\ number_text a id /\ number_text b total /\ 1 <= id <= total.
Proof.
  intros s id total. unfold id_from_str. split.
  - destruct (split slash s) as [|a [|b [|]]] eqn:E; try discriminate. apply split_two in E as (-> & _).
    destruct (parse_u64 a) as [x|] eqn:A; [|discriminate]. destruct (parse_u64 b) as [y|] eqn:B; [|discriminate]. apply parse_u64_iff in A, B.
    destruct (N.ltb_spec y x); [discriminate|]. destruct ((x =? 0) || (y =? 0)) eqn:Z; [discriminate|]. intros H'. injection H' as <- <-.
    exists a, b. apply orb_false_iff in Z as [Z1 Z2]. apply N.eqb_neq in Z1, Z2. split; [reflexivity|]. split; [exact A|]. split; [exact B|lia].
  - intros (a & b & -> & A & B & L). change (a ++ lit "/" ++ b)%list with (a ++ slash :: b)%list.
    rewrite (proj2 (split_two slash _ a b)) by (split; [reflexivity|split; [exact (no_slash _ _ A)|exact (no_slash _ _ B)]]).
    rewrite (proj2 (parse_u64_iff a id) A), (proj2 (parse_u64_iff b total) B). rewrite (proj2 (N.ltb_ge _ _)) by lia.
    rewrite (proj2 (N.eqb_neq id 0)), (proj2 (N.eqb_neq total 0)) by lia. reflexivity.
Qed.
Print Assumptions C105_id.
(** If all bridges of a set are given their own number, then each content has exactly one of them. *)
Theorem C105_one_bridge : forall total index, 1 <= total < 2 ^ 64 ->
  exists id, id_from_str (write id ++ lit "/" ++ write total)%list = Ok (id, total) /\ is_selected id total index = true /\
    forall s id', id_from_str s = Ok (id', total) -> is_selected id' total index = true -> id' = id.
Proof.
  intros total index L. assert (index mod total < total) as M by (apply N.mod_lt; lia). exists (index mod total + 1). split; [|split].
  - apply C105_id. eexists _, _. split; [reflexivity|]. split; [apply write_text; lia|]. split; [apply write_text; lia|lia].
  - unfold is_selected. destruct (N.eqb_spec total 1); [reflexivity|]. apply N.eqb_eq. lia.
  - intros s id' E. apply C105_id in E as (a & b & _ & _ & _ & Bd). unfold is_selected. destruct (N.eqb_spec total 1) as [->|]; intros H.
    + rewrite N.mod_1_r in *. lia.
    + apply N.eqb_eq in H. lia.
Qed.
Print Assumptions C105_one_bridge.
Example C105_id_example : id_from_str (lit "1/4") = Ok (1, 4) /\ id_from_str (lit "5/4") = Err /\ id_from_str (lit "0/4") = Err /\ id_from_str (lit "1/4/4") = Err /\
  map (fun i => is_selected 2 4 i) [0; 1; 2; 3; 4; 5] = [false; true; false; false; false; true].
Proof. vm_compute. repeat split. Qed.

(** ** Names *)
Lemma subnetwork_round s : subnetwork_from_str (to_cli_arg s) = Ok s.
Proof. destruct s; reflexivity. Qed.
Lemma subnetwork_name t s : subnetwork_from_str t = Ok s -> t = to_cli_arg s.
Proof.
  unfold subnetwork_from_str. repeat match goal with |- (if beqb t ?l then _ else _) = _ -> _ => destruct (beqb t l) eqn:?; [intros H; injection H as <-; apply beqb_spec; assumption|] end. discriminate.
Qed.
Lemma subnetwork_no_panic t : subnetwork_from_str t <> Panic.
Proof. unfold subnetwork_from_str. repeat match goal with |- (if beqb t ?l then _ else _) <> _ => destruct (beqb t l); [discriminate|] end. discriminate. Qed.
(** The subnetworks are given by their names, with commas between them; only active ones are accepted. *)
Theorem C105_subnetworks : forall s l, subnetwork_parser s = Ok l <->
  l <> [] /\ s = join comma (map to_cli_arg l) /\ forall x, In x l -> x = Beacon \/ x = LegacyHistory \/ x = State.
Proof.
  intros s l. unfold subnetwork_parser. split.
  - destruct (all_ok _) as [l'| |] eqn:E; cbn [obind]; try discriminate. intros H.
    assert (l' <> [] /\ forallb is_active l' = true /\ l' = l) as (Nn & Ac & ->) by (destruct l'; [discriminate|]; destruct (forallb _ _); [injection H as <-; repeat split; discriminate|discriminate]).
    split; [exact Nn|]. split.
    + apply all_ok_inv in E. destruct (split_separated comma s) as (_ & -> & _). f_equal. clear - E. induction E as [|t x lt lx T E IH]; [reflexivity|].
      cbn [map]. f_equal; [apply subnetwork_name; exact T|exact IH].
    + intros x I. rewrite forallb_forall in Ac. specialize (Ac x I). destruct x; try discriminate; tauto.
  - intros (Nn & -> & Ac). rewrite (separated_split comma (map to_cli_arg l)).
    + rewrite (all_ok_intro subnetwork_from_str (map to_cli_arg l) l).
      * cbn [obind]. destruct l as [|x l]; [congruence|]. replace (forallb is_active (x :: l)) with true; [reflexivity|]. symmetry. apply forallb_forall.
        intros y I. destruct (Ac y I) as [->|[->| ->]]; reflexivity.
      * clear. induction l; constructor; [apply subnetwork_round|assumption].
    + split; [destruct l; [congruence|discriminate]|]. split; [reflexivity|]. apply Forall_map, Forall_forall. intros x _. clear.
      intros I. assert (forallb (fun c => negb (c =? comma)) (to_cli_arg x) = true) as F by (destruct x; reflexivity).
      rewrite forallb_forall in F. specialize (F _ I). discriminate.
Qed.
Print Assumptions C105_subnetworks.
(** The other names *)
Theorem C105_names :
  (forall s n, network_parser s = Ok n <-> s = match n with Mainnet => lit "mainnet" | Angelfood => lit "angelfood" | Sepolia => lit "sepolia" end) /\
  (forall s t, transport_from_str s = Ok t <-> s = match t with HTTP => lit "http" | IPC => lit "ipc" end) /\
  (forall s t, trace_from_str s = Ok t <-> match t with TraceNone => s = lit "none" | TraceAll => s = lit "all" | TraceBlock n => exists a, s = (lit "block:" ++ a)%list /\ number_text a n end).
Proof.
  split; [|split].
  - intros s n. split; [|intros ->; destruct n; reflexivity]. unfold network_parser.
    repeat match goal with |- (if beqb s ?l then _ else _) = _ -> _ => destruct (beqb s l) eqn:?; [intros H; injection H as <-; apply beqb_spec; assumption|] end. discriminate.
  - intros s t. split; [|intros ->; destruct t; reflexivity]. unfold transport_from_str.
    repeat match goal with |- (if beqb s ?l then _ else _) = _ -> _ => destruct (beqb s l) eqn:?; [intros H; injection H as <-; apply beqb_spec; assumption|] end. discriminate.
  - intros s t. unfold trace_from_str. split.
    + destruct (beqb s (lit "none")) eqn:E1; [intros H; injection H as <-; apply beqb_spec; assumption|].
      destruct (beqb s (lit "all")) eqn:E2; [intros H; injection H as <-; apply beqb_spec; assumption|].
      destruct (split_once colon s) as [[p v]|] eqn:Es; [|discriminate]. apply split_once_iff in Es as [-> _].
      destruct (beqb p (lit "block")) eqn:E3; [|discriminate]. apply beqb_spec in E3 as ->. destruct (parse_u64 v) as [n|] eqn:P; [|discriminate].
      intros H. injection H as <-. exists v. split; [reflexivity|]. apply parse_u64_iff. exact P.
    + destruct t as [| |n]; [intros ->; reflexivity|intros ->; reflexivity|]. intros (a & -> & A).
      change (lit "block:" ++ a)%list with (lit "block" ++ colon :: a)%list. rewrite !(eqb_lit (lit "block" ++ colon :: a)) by (vm_compute; congruence).
      rewrite (proj2 (split_once_iff colon _ (lit "block") a)) by (split; [reflexivity|apply lit_no_colon; reflexivity]).
      rewrite beqb_refl, (proj2 (parse_u64_iff a n) A). reflexivity.
Qed.
Print Assumptions C105_names.
(** The blocks whose execution is written to a trace are those that the option names. *)
Theorem C105_trace : forall s n,
  (exists t, trace_from_str s = Ok t /\ should_trace t n = true) <-> s = lit "all" \/ exists a, s = (lit "block:" ++ a)%list /\ number_text a n.
Proof.
  intros s n. destruct C105_names as (_ & _ & T). split.
  - intros (t & E & S). apply T in E. destruct t as [| |b]; cbn [should_trace] in S; [discriminate|left; exact E|]. apply N.eqb_eq in S. subst b. right. exact E.
  - intros [E|E].
    + exists TraceAll. split; [apply T; exact E|reflexivity].
    + exists (TraceBlock n). split; [apply T; exact E|apply N.eqb_refl].
Qed.
Print Assumptions C105_trace.
Example C105_trace_example : trace_from_str (lit "block:15") = Ok (TraceBlock 15) /\ should_trace (TraceBlock 15) 15 = true /\ should_trace (TraceBlock 15) 16 = false.
Proof. vm_compute. repeat split. Qed.
(** A private key and a trusted block root are 32 bytes in hexadecimal digits after "0x". *)
Lemma spells_length s b : hex_spells s b -> length s = (2 * length b)%nat.
Proof. intros H. induction H; cbn [length]; lia. Qed.
Lemma b256_iff s b : blen s = 66 -> (b256_from_str s = Ok b <-> exists t, s = (lit "0x" ++ t)%list /\ hex_spells t b /\ length b = 32%nat).
Proof.
  intros L. unfold b256_from_str. split.
  - destruct (beqb (firstn 2 s) (lit "0x")) eqn:P; cbv zeta iota.
    + apply beqb_spec in P. destruct (blen (skipn 2 s) =? 64); [|discriminate]. intros D. exists (skipn 2 s). rewrite <- P, firstn_skipn. split; [reflexivity|].
      apply hex_decode_raw_spec in D. split; [exact D|]. apply spells_length in D. rewrite skipn_length in D. unfold blen in L. lia.
    + rewrite L. discriminate.
  - intros (t & -> & T & Lb). change (beqb (firstn 2 (lit "0x" ++ t)) (lit "0x")) with true. change (skipn 2 (lit "0x" ++ t)) with t. cbv zeta iota.
    pose proof (spells_length _ _ T) as E. assert (blen t =? 64 = true) as -> by (apply N.eqb_eq; unfold blen; lia). apply hex_decode_raw_spec. exact T.
Qed.
Theorem C105_key : forall s b,
  (check_private_key_length s = Ok b <-> exists t, s = (lit "0x" ++ t)%list /\ hex_spells t b /\ length b = 32%nat) /\
  (check_trusted_block_root s = Ok b <-> exists t, s = (lit "0x" ++ t)%list /\ hex_spells t b /\ length b = 32%nat).
Proof.
  intros s b.
  assert (check_private_key_length s = Ok b <-> exists t, s = (lit "0x" ++ t)%list /\ hex_spells t b /\ length b = 32%nat) as K.
  { unfold check_private_key_length. destruct (N.eqb_spec (blen s) 66) as [L|L]; [apply b256_iff; exact L|]. split; [discriminate|].
    intros (t & -> & T & Lb). destruct L. apply spells_length in T. change (lit "0x" ++ t)%list with (48 :: 120 :: t). unfold blen. cbn [length]. lia. }
  split; [exact K|]. rewrite <- K. unfold check_trusted_block_root, check_private_key_length. split.
  - destruct (beqb (firstn 2 s) (lit "0x")); [exact (fun H => H)|discriminate].
  - intros H. assert (exists t, s = (lit "0x" ++ t)%list) as (t & ->) by (apply K in H as (t & E & _); exists t; exact E). exact H.
Qed.
Print Assumptions C105_key.
Example C105_key_example : check_private_key_length (lit "0x" ++ concat (repeat (lit "aB") 32))%list = Ok (repeat 171 32) /\
  check_private_key_length (concat (repeat (lit "aB") 33)) = Err /\ check_trusted_block_root (concat (repeat (lit "aB") 32)) = Err.
Proof. vm_compute. repeat split. Qed.

(** ** What the bridge does *)
(** A bridge runs together with the subnetworks it depends on. *)
Theorem C105_dependencies : forall s l, subnetworks_flag s = Ok l ->
  (forall x, In x l <-> x = s \/ In x (dependencies s)) /\ forall x d, In x l -> In d (dependencies x) -> In d l.
Proof. intros s l H. destruct s; cbn in H; try discriminate; injection H as <-; (split; [intros x|intros x d]; cbn; [intuition congruence|]); intros H; repeat destruct H as [<-|H]; cbn; intuition congruence. Qed.
Print Assumptions C105_dependencies.
Lemma main_single x y r : main State (Single x y) r = if 15537394 <? y then Panic else Ok (GossipState x y).
Proof. reflexivity. Qed.
Lemma main_snapshot n r : main State (Snapshot n) r = if 0 <? n then Ok (GossipSnapshot n) else Panic.
Proof. reflexivity. Qed.
(** Each combination of a subnetwork and a mode does what it says or is refused; ranges are given only with the mode that has ranges. *)
Theorem C105_work : forall s m r w, main s m r = Ok w <-> runs s m r w.
Proof.
  intros s m r w. split.
  - intros H. destruct s, m as [| | |x y|n]; try discriminate H; try (injection H as <-; constructor).
    + destruct r; [injection H as <-; constructor|discriminate H].
    + rewrite main_single in H. destruct (N.ltb_spec 15537394 y); [discriminate H|]. injection H as <-. constructor. lia.
    + rewrite main_snapshot in H. destruct (N.ltb_spec 0 n); [|discriminate H]. injection H as <-. constructor. assumption.
  - intros [|r0| |x y r0 L|n r0 L]; try reflexivity.
    + rewrite main_single, (proj2 (N.ltb_ge _ _) L). reflexivity.
    + rewrite main_snapshot, (proj2 (N.ltb_lt _ _) L). reflexivity.
Qed.
Print Assumptions C105_work.
(** What is refused is refused by a panic; in particular, so are the defaults. *)
Theorem C105_unsupported_refuted :
  (forall s m r, (forall w, ~ runs s m r w) -> main s m r = Panic) /\
  (forall mode range sub m r s, mode_text mode m -> range_text range r -> subnetwork_from_str sub = Ok s -> (forall w, ~ runs s m (Some r) w) ->
     bridge_main (Some mode) (Some range) (Some sub) = Panic) /\
  bridge_main None None None = Panic.
Proof.
  assert (forall s m r, (forall w, ~ runs s m r w) -> main s m r = Panic) as A.
  { intros s m r H. destruct (main s m r) as [w| |] eqn:E; [apply C105_work in E; destruct (H _ E)| |reflexivity].
    destruct s, m as [| | |x y|n]; try discriminate E; [destruct r; discriminate E|rewrite main_single in E; destruct (_ <? _); discriminate E|rewrite main_snapshot in E; destruct (_ <? _); discriminate E]. }
  split; [exact A|]. split; [|reflexivity]. intros mode range sub m r s Tm Tr Es H. unfold bridge_main.
  apply C105_mode in Tm. apply C105_range in Tr. rewrite Tm. cbn [obind]. rewrite Tr. cbn [obind omap]. rewrite Es. cbn [obind]. apply A. exact H.
Qed.
Print Assumptions C105_unsupported_refuted.
Example C105_work_example :
  bridge_main (Some (lit "e2hs")) (Some (lit "0-")) None = Ok (GossipFiles {| range_start := 0; range_stop := None |}) /\
  bridge_main None None (Some (lit "beacon")) = Ok FollowBeacon /\
  bridge_main (Some (lit "single:r0-15537394")) None (Some (lit "state")) = Ok (GossipState 0 15537394) /\
  bridge_main (Some (lit "single:r0-15537395")) None (Some (lit "state")) = Panic /\
  bridge_main (Some (lit "e2hs")) None None = Panic /\ bridge_main None None (Some (lit "history")) = Panic /\ bridge_main None None (Some (lit "all")) = Err /\
  subnetwork_parser (lit "beacon,legacy_history,state") = Ok [Beacon; LegacyHistory; State] /\ subnetwork_parser (lit "beacon,history") = Err /\ subnetwork_parser [] = Err.
Proof. vm_compute. repeat split. Qed.
