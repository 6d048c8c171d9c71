(** eth_call: the properties. *)
From Verif Require Import Base Rewards_Model Rewards_Spec Rewards_Props TxEnv_Model Walker_Props EvmState_Proofs ExecDb_Model ExecDb_Proofs Keys_Model Keys_Spec Keys_Props Merkle_Spec Trie_Model Trie_Spec StateContent_Model StateContent_Spec StateContent_Proofs StateContent_Props Header_Model Header_Spec Header_Props
  LegacyHistory_Model LegacyHistory_Spec LegacyHistory_Props EvmState_Model EvmState_Spec EvmState_Props EthApi_Model EthApi_Spec EthApi_Props EthCall_Model EthCall_Spec.

Section Run.
Context (keccak : bytes -> bytes) (decode_node : bytes -> outcome Trie_Model.node) (decode_account : bytes -> outcome account)
        (raw_ok : bytes -> bool) (net : N -> state_key -> outcome bytes) (fuel : nat).
Context (t : Trie_Model.node) (storage_of : bytes -> Trie_Model.node).
Notation ask := (ask keccak decode_node decode_account raw_ok net fuel).
Notation ask_all := (ask_all keccak decode_node decode_account raw_ok net fuel).
Notation after := (after keccak decode_node decode_account raw_ok net fuel).
Notation right := (right keccak decode_account t storage_of).
Notation run := (run keccak decode_node decode_account raw_ok net fuel).
Notation executes := (executes keccak decode_account t storage_of).
Notation start := (open_session (root_hash keccak t)).
Context (K : forall x, hash32 (keccak x)) (Rb : reads_back keccak decode_node)
        (Pa : forall v, decode_account v <> Panic) (Pn : forall i k, net i k <> Panic) (Pr : forall c, raw_ok c = true)
        (W : world keccak decode_account t storage_of) (Lf : (64 < fuel)%nat)
        (Sv : forall i k b, net i k = Ok b -> served keccak decode_node decode_account k b)
        (F1 : no_forgery keccak net t) (F2 : forall h a, account_is decode_account t h (Some a) -> no_forgery keccak net (storage_of h)).

Lemma ask_all_app qs q s s' rs : ask_all qs s = Some (s', rs) -> forall s'' r, ask q s' = Some (s'', r) -> ask_all (qs ++ [q]) s = Some (s'', rs ++ [r]).
Proof.
  revert s rs. induction qs as [|p qs IH]; intros s rs E s'' r A.
  - cbn in E. injection E as -> <-. cbn. rewrite A. reflexivity.
  - cbn [EvmState_Model.ask_all app] in *. destruct (ask p s) as [[s1 r1]|]; [|discriminate]. destruct (ask_all qs s1) as [[s2 rs2]|] eqn:E2; [|discriminate]. injection E as -> <-.
    rewrite (IH s1 rs2 E2 s'' r A). reflexivity.
Qed.
Lemma one_more qs s q : after (root_hash keccak t) qs s -> exists s' r, ask q s = Some (s', r) /\ after (root_hash keccak t) (qs ++ [q]) s' /\
  match r with Ok a => right q a | Err => True | Panic => False end.
Proof.
  intros (rs & E). destruct (C96_sound keccak decode_node decode_account raw_ok net t storage_of fuel K Rb Pa Pn Pr W Lf Sv F1 F2 (qs ++ [q])) as (s2 & rs2 & E2 & F).
  assert (exists s' r, ask q s = Some (s', r)) as (s' & r & A).
  { revert E2. clear F. revert E. generalize start rs s2 rs2. clear. induction qs as [|p qs IH]; intros s0 rs s2 rs2 E E2.
    - cbn in E. injection E as -> <-. cbn in E2. destruct (ask q s) as [[s' r]|]; [eauto|discriminate].
    - cbn [EvmState_Model.ask_all app] in *. destruct (ask p s0) as [[s1 r1]|]; [|discriminate]. destruct (ask_all qs s1) as [[s3 rs3]|] eqn:E3; [|discriminate]. injection E as -> <-.
      destruct (ask_all (qs ++ [q]) s1) as [[s4 rs4]|] eqn:E4; [|discriminate]. exact (IH _ _ _ _ E3 E4). }
  pose proof (ask_all_app qs q _ _ _ E _ _ A) as E3. rewrite E2 in E3. injection E3 as -> ->. exists s', r. split; [exact A|]. split; [eexists; exact E2|].
  apply Forall2_app_inv_r in F as (l1 & l2 & _ & F & Eq). inversion F as [|x y lx ly Hx Fx]; subst. inversion Fx; subst. apply app_inj_tail in Eq as [_ <-]. exact Hx.
Qed.
(** An execution ends; all that it has read is right; and it is complete or there was an error. *)
Lemma run_sound p : forall qs s, after (root_hash keccak t) qs s -> exists s' r, run p s = Some (s', r) /\ r <> Panic /\ forall x, r = Ok x -> executes p x.
Proof.
  induction p as [r|q k IH|n k IH]; intros qs s A.
  - exists s, (Ok r). split; [reflexivity|]. split; [discriminate|]. intros x [= <-]. constructor.
  - cbn [EthCall_Model.run]. destruct (one_more qs s q A) as (s' & r & E & A' & Hr). unfold rbind. rewrite E. destruct r as [a| |]; [|eexists _, _; split; [reflexivity|]; split; discriminate|destruct Hr].
    destruct (IH a _ _ A') as (s2 & r2 & E2 & P2 & G). exists s2, r2. split; [exact E2|]. split; [exact P2|]. intros x X. econstructor; [exact Hr|exact (G x X)].
  - cbn [EthCall_Model.run]. eexists _, _. split; [reflexivity|]. split; discriminate.
Qed.
(** If the network has the state, a modest program is executed to its end. *)
Lemma run_complete (H : has_state keccak decode_account net t storage_of) (A0 : all_accounts decode_account t) (E0 : no_empty_leaf t)
  (En : forall ah a, account_is decode_account t ah (Some a) -> no_empty_leaf (storage_of ah)) p :
  forall qs s, after (root_hash keccak t) qs s -> modest keccak decode_account t storage_of qs p -> exists s' x, run p s = Some (s', Ok x) /\ executes p x.
Proof.
  induction p as [r|q k IH|n k IH]; intros qs s A M.
  - exists s, r. split; [reflexivity|constructor].
  - cbn [modest] in M. destruct M as [Rq M]. destruct (one_more qs s q A) as (s' & r & E & A' & Hr).
    destruct (C96_complete keccak decode_node decode_account raw_ok net t storage_of fuel K Rb Pa Pn Pr W Lf H A0 E0 En Sv F2 qs s A) as (G1 & G2 & G3).
    assert (exists s'' a, ask q s = Some (s'', Ok a) /\ right q a) as (s'' & a & E' & Ra).
    { destruct q as [address|h|address i]; cbn [readable] in Rq; [apply G1| |apply G2, Rq]. destruct Rq as (address & a & Aa & -> & I). exact (G3 address a Aa I). }
    rewrite E in E'. injection E' as <- ->. cbn [EthCall_Model.run]. unfold rbind. rewrite E. destruct (IH a _ _ A' (M a Ra)) as (s2 & x & E2 & X). exists s2, x. split; [exact E2|]. econstructor; eassumption.
  - destruct M.
Qed.
End Run.

(** What the EVM is given. *)
Lemma block_seen blob_price h : sees_block blob_price h (create_block_env blob_price h).
Proof.
  unfold sees_block, create_block_env. cbn [be_number be_timestamp be_gas_limit be_difficulty be_beneficiary be_basefee be_prevrandao be_blob].
  destruct (C86_uses (v_number h) (v_mix_hash h)) as (_ & _ & P1 & P2).
  split; [reflexivity|]. split; [reflexivity|]. split; [reflexivity|]. split; [reflexivity|]. split; [reflexivity|].
  split; [intros f ->; reflexivity|]. split; [intros ->; reflexivity|]. split; [apply P1|]. split; [apply P2|]. split; [intros ->; reflexivity|].
  intros x -> L. pose proof (C86_rules_partial _ L) as [_ Q]. destruct (is_enabled_in (get_spec_id (v_number h)) PRAGUE) eqn:E; [|reflexivity]. exfalso.
  unfold is_enabled_in in E. apply N.leb_le in E. destruct (get_spec_id (v_number h)) eqn:G; cbn in E; try lia.
  destruct (C86_rules_partial _ L) as [(b & Ab & Lb) _]. rewrite G in Ab. injection Ab as <-. lia.
Qed.
Lemma request_asked gas h r : as_asked h r (modify_request (fill h r) (default_tx_env gas)).
Proof.
  assert (G : forall A (o : option A) d, given o d (TxEnv_Model.or_else o d)) by (intros A [y|] d; split; cbn; congruence).
  unfold as_asked, modify_request, fill, default_tx_env. cbn.
  split; [apply G|]. split; [intros k ->; reflexivity|]. split; [destruct (r_gas r); split; cbn; congruence|]. split; [intros p ->; reflexivity|].
  split; [intros ->; cbn; destruct (r_gas_price r); split; cbn; try congruence; intros _; destruct (v_base_fee h); reflexivity|].
  split; [apply G|]. split; [intros d ->; reflexivity|]. split; [intros ->; exact (G _ (r_data r) [])|]. split; [apply G|]. split; [reflexivity|]. split; [apply G|]. split; [reflexivity|]. split; apply G.
Qed.

Section Call.
Context {tx rct wdl : Type}.
Context (HC : codec full_header) (HL : codec (list full_header)) (TC : codec tx) (RC : codec rct) (WC : codec wdl).
Context (keccak : bytes -> bytes) (trie_root : list bytes -> bytes).
Context (sha : bytes -> bytes) (fk : forks) (state_root_of : full_header -> bytes) (fields : full_header -> env_header).
Context (Hsha : forall x, len32 (sha x)) (K : forall x, hash32 (keccak x)).
Context (PHC : proper HC) (PHL : proper HL) (PTC : proper TC) (PRC : proper RC) (PWC : proper WC).
Context (decode_node : bytes -> outcome Trie_Model.node) (decode_account : bytes -> outcome account)
        (raw_ok : bytes -> bool) (net : N -> state_key -> outcome bytes) (fuel : nat).
Context (Rb : reads_back keccak decode_node) (Pa : forall v, decode_account v <> Panic) (Pn : forall i k, net i k <> Panic) (Pr : forall c, raw_ok c = true) (Lf : (64 < fuel)%nat)
        (Sv : forall i k b, net i k = Ok b -> served keccak decode_node decode_account k b).
Context (blob_price : N -> bool -> N) (default_gas : N) (evm : spec_id -> block_env -> tx_env -> program).
Context (Fn : forall h, v_number (fields h) = number h).
Notation header_in := (header_in HC keccak sha fk).
Notation answered := (answered HC HL TC RC WC keccak trie_root sha fk).
Notation meant := (meant HC keccak).
Notation evm_block_state := (evm_block_state HC HL TC RC WC fk).
Notation eth_call := (fun lookup => eth_call HC HL TC RC WC keccak fk state_root_of fields lookup decode_node decode_account raw_ok net blob_price default_gas evm).
Notation state_of := (state_of keccak state_root_of decode_account net).
Notation executes := (executes keccak decode_account).

Lemma block_number_of h : be_number (create_block_env blob_price (fields h)) = number h.
Proof. exact (Fn h). Qed.

(** A result of eth_call is that of executing the transaction that was asked for, in the block that was named, under
    the rules of that block, on the state after that block. *)
Theorem C98_sound : forall c lookup enabled r block output, chain_ok c -> answered c lookup -> id_ok block ->
  eth_call lookup enabled fuel r block = Some (Ok output) ->
  exists h p spec b e, header_in c h p /\ meant block h /\
    (number h < 22431084 -> rules_at (number h) spec) /\ sees_block blob_price (fields h) b /\ as_asked (fields h) r e /\
    forall t storage_of, state_of h t storage_of -> executes t storage_of (evm spec b e) (Success output).
Proof.
  intros c lookup enabled r block output C L V E. unfold EthCall_Model.eth_call in E. destruct enabled; [|discriminate].
  destruct (evm_block_state lookup true block) as [h| |] eqn:Eh; try discriminate.
  destruct (state_header HC HL TC RC WC keccak trie_root sha fk (fun _ _ => 0) state_root_of Hsha K PHC PHL PTC PRC PWC c lookup block h C L V Eh) as (M & p & Hi).
  exists h, p, (get_spec_id (number h)), (create_block_env blob_price (fields h)), (modify_request (fill (fields h) r) (default_tx_env default_gas)).
  split; [exact Hi|]. split; [exact M|]. split; [apply C86_rules_partial|]. split; [apply block_seen|]. split; [apply request_asked|].
  intros t st (Rt & W & F1 & F2). unfold execute_transaction, create_evm_request in E. rewrite (block_number_of h), Rt in E.
  destruct (run_sound keccak decode_node decode_account raw_ok net fuel t st K Rb Pa Pn Pr W Lf Sv F1 F2 (evm (get_spec_id (number h)) (create_block_env blob_price (fields h)) (modify_request (fill (fields h) r) (default_tx_env default_gas))) [] _ (ex_intro _ [] eq_refl))
    as (s' & x & Er & _ & G).
  rewrite Er in E. destruct x as [[out| | |]| |]; try discriminate. injection E as ->. apply G. reflexivity.
Qed.

(** It ends with a result or an error, whatever the peers answer. *)
Theorem C98_ends : forall lookup enabled r block, (forall i k, lookup i k <> Panic) ->
  (forall h, evm_block_state lookup enabled block = Ok h -> exists t storage_of, state_of h t storage_of) ->
  exists x, eth_call lookup enabled fuel r block = Some x /\ x <> Panic.
Proof.
  intros lookup enabled r block Pl Hs.
  assert (Pf : forall i k, fetch_history_content (tx := tx) (rct := rct) (wdl := wdl) HC HL TC RC WC fk lookup i k <> Panic).
  { intros i k. unfold fetch_history_content. destruct (lookup i k) eqn:E; cbn [obind]; [apply (C77_no_panic HC HL TC RC WC fk)|discriminate|destruct (Pl _ _ E)]. }
  assert (Pe : evm_block_state lookup enabled block <> Panic).
  { unfold EthApi_Model.evm_block_state. destruct enabled; [|discriminate]. destruct block as [hash|[n| | | | |]]; try discriminate; unfold fetch_header_by_hash, fetch_header_by_number; cbn [as_number];
      match goal with |- context [fetch_history_content _ _ _ _ _ _ _ ?i ?k] => pose proof (Pf i k) as P; destruct (fetch_history_content HC HL TC RC WC fk lookup i k) as [[]| |] end; cbn; congruence. }
  unfold EthCall_Model.eth_call. destruct (evm_block_state lookup enabled block) as [h| |] eqn:Eh; [|eexists; split; [reflexivity|discriminate]|congruence].
  destruct (Hs h eq_refl) as (t & st & Rt & W & F1 & F2). unfold execute_transaction, create_evm_request. rewrite Rt.
  destruct (run_sound keccak decode_node decode_account raw_ok net fuel t st K Rb Pa Pn Pr W Lf Sv F1 F2 (evm (get_spec_id (be_number (create_block_env blob_price (fields h)))) (create_block_env blob_price (fields h)) (modify_request (fill (fields h) r) (default_tx_env default_gas))) [] _ (ex_intro _ [] eq_refl))
    as (s' & x & Er & Px & _). rewrite Er. destruct x as [[out| | |]| |]; try congruence; eexists; (split; [reflexivity|discriminate]).
Qed.
(** If the network has the state, and the execution reads only what can be read, the result is
    that of the execution. *)
Theorem C98_complete_partial : forall lookup r block h t storage_of,
  evm_block_state lookup true block = Ok h -> state_of h t storage_of -> has_state keccak decode_account net t storage_of ->
  all_accounts decode_account t -> no_empty_leaf t -> (forall ah a, account_is decode_account t ah (Some a) -> no_empty_leaf (storage_of ah)) ->
  (forall spec b e, sees_block blob_price (fields h) b -> as_asked (fields h) r e -> modest keccak decode_account t storage_of [] (evm spec b e)) ->
  exists spec b e x, (number h < 22431084 -> rules_at (number h) spec) /\ sees_block blob_price (fields h) b /\ as_asked (fields h) r e /\
    executes t storage_of (evm spec b e) x /\
    eth_call lookup true fuel r block = Some (match x with Success output => Ok output | _ => Err end).
Proof.
  intros lookup r block h t st Eh (Rt & W & F1 & F2) H A0 E0 En M.
  exists (get_spec_id (number h)), (create_block_env blob_price (fields h)), (modify_request (fill (fields h) r) (default_tx_env default_gas)).
  destruct (run_complete keccak decode_node decode_account raw_ok net fuel t st K Rb Pa Pn Pr W Lf Sv F1 F2 H A0 E0 En
    (evm (get_spec_id (number h)) (create_block_env blob_price (fields h)) (modify_request (fill (fields h) r) (default_tx_env default_gas))) [] _ (ex_intro _ [] eq_refl))
    as (s' & x & Er & X); [apply M; [apply block_seen|apply request_asked]|]. exists x.
  split; [apply C86_rules_partial|]. split; [apply block_seen|]. split; [apply request_asked|]. split; [exact X|].
  unfold EthCall_Model.eth_call. rewrite Eh. unfold execute_transaction, create_evm_request. rewrite (block_number_of h), Rt, Er. destruct x; reflexivity.
Qed.

(** ** What eth_call does not do *)

(** A request without a recipient is not a creation: it is a call of address 0. *)
Theorem C98_create_refuted : forall lookup enabled r block, r_to r = None ->
  eth_call lookup enabled fuel r block =
  eth_call lookup enabled fuel (mk_request (r_from r) (Some (Call zero_address)) (r_gas_price r) (r_max_fee r) (r_max_priority_fee r) (r_max_fee_per_blob_gas r) (r_gas r) (r_value r)
    (r_input r) (r_data r) (r_nonce r) (r_chain_id r) (r_access_list r) (r_type r) (r_blob_hashes r) (r_authorizations r)) block.
Proof.
  intros lookup enabled r block E. unfold EthCall_Model.eth_call, execute_transaction, create_evm_request, fill, modify_request.
  cbn [r_from r_to r_gas_price r_max_fee r_max_priority_fee r_max_fee_per_blob_gas r_gas r_value r_input r_data r_nonce r_chain_id r_access_list r_type r_blob_hashes r_authorizations]. rewrite E. reflexivity.
Qed.
(** The type and the authorizations of a request are ignored: *)
Theorem C98_type_refuted : forall lookup enabled r block type auths,
  eth_call lookup enabled fuel r block =
  eth_call lookup enabled fuel (mk_request (r_from r) (r_to r) (r_gas_price r) (r_max_fee r) (r_max_priority_fee r) (r_max_fee_per_blob_gas r) (r_gas r) (r_value r)
    (r_input r) (r_data r) (r_nonce r) (r_chain_id r) (r_access_list r) type (r_blob_hashes r) auths) block.
Proof. reflexivity. Qed.
(** Who has sent a transaction before, or cannot pay for the gas of a whole block, cannot call without naming a nonce or a
    price: the nonce is 0 and the price the base fee. *)
Theorem C98_sender_refuted : forall lookup r block h t storage_of from a, checks_sender keccak decode_account evm ->
  evm_block_state lookup true block = Ok h -> state_of h t storage_of ->
  r_from r = Some from -> account_is decode_account t (keccak from) (Some a) ->
  (r_nonce r = None /\ nonce a <> 0) \/
  (r_gas r = None /\ r_gas_price r = None /\ r_max_fee r = None /\ exists f, v_base_fee (fields h) = Some f /\ balance a < v_gas_limit (fields h) * f) ->
  eth_call lookup true fuel r block = Some Err.
Proof.
  intros lookup r block h t st from a Ck Eh (Rt & W & F1 & F2) Ef A H. unfold EthCall_Model.eth_call. rewrite Eh. unfold execute_transaction, create_evm_request. rewrite (block_number_of h), Rt.
  destruct (run_sound keccak decode_node decode_account raw_ok net fuel t st K Rb Pa Pn Pr W Lf Sv F1 F2 (evm (get_spec_id (number h)) (create_block_env blob_price (fields h)) (modify_request (fill (fields h) r) (default_tx_env default_gas))) [] _ (ex_intro _ [] eq_refl))
    as (s' & x & Er & Px & G). rewrite Er. destruct x as [x| |]; [|reflexivity|congruence]. specialize (G x eq_refl).
  assert (x = Refused) as ->; [|reflexivity]. refine (Ck _ _ _ _ _ a _ W _ _ G).
  - unfold modify_request, fill. cbn. rewrite Ef. exact A.
  - unfold modify_request, fill, default_tx_env. cbn. destruct H as [[-> N0]|(-> & -> & -> & f & -> & L)]; cbn; [left; exact N0|right; lia].
Qed.
End Call.
(** and so a request with a fee cap pays the cap, whatever its tip. *)
Theorem C98_price_refuted : forall gas h r cap tip basefee, r_max_fee r = Some cap -> r_max_priority_fee r = Some tip -> basefee + tip < cap ->
  let e := modify_request (fill h r) (default_tx_env gas) in
  charged e basefee = cap /\ charged e basefee <> N.min cap (basefee + tip).
Proof.
  intros gas h r cap tip basefee E1 E2 L e. assert (charged e basefee = cap) as ->; [|split; [reflexivity|lia]].
  unfold e, charged, modify_request, fill, default_tx_env. cbn. rewrite E1. reflexivity.
Qed.
Print Assumptions C98_sound.
Print Assumptions C98_ends.
Print Assumptions C98_complete_partial.
Print Assumptions C98_create_refuted.
Print Assumptions C98_type_refuted.
Print Assumptions C98_sender_refuted.
Print Assumptions C98_price_refuted.

(** ** An example: a small EVM that checks the sender, and calls a contract that returns its slot 7. *)
Definition toy_evm (spec : spec_id) (b : block_env) (e : tx_env) : program :=
  Ask (QBasic (e_caller e)) (fun r =>
    match r with
    | ABasic (Some i) =>
        if negb (i_nonce i =? e_nonce e) || (i_balance i <? e_gas_limit e * e_gas_price e + e_value e) then Done Refused
        else match e_kind e with
             | Create => Done Halt
             | Call to =>
                 Ask (QBasic to) (fun r =>
                   match r with
                   | ABasic (Some j) => Ask (QCode (i_code_hash j)) (fun _ => Ask (QStorage to 7) (fun r => match r with AStorage v => Done (Success [v; be_basefee b]) | _ => Done Halt end))
                   | _ => Done (Success [])
                   end)
             end
    | _ => Done Halt
    end).
Lemma toy_checks : checks_sender toy_hash decode_account toy_evm.
Proof.
  intros t st spec b e a x W A H X. unfold toy_evm in X. inversion X as [|q r k y Rq Xk]; subst. destruct r as [[i|]| |]; cbn [EvmState_Spec.right] in Rq; try contradiction.
  - destruct Rq as (a' & A' & Eb & En & _). assert (a' = a) as ->.
    { destruct (w_trie _ _ _ _ W) as (T & _). destruct A as (v & Hv & Dv), A' as (w & Hw & Dw). rewrite (holds_unique t T _ w v Hw Hv) in Dw. congruence. }
    assert (negb (i_nonce i =? e_nonce e) || (i_balance i <? e_gas_limit e * e_gas_price e + e_value e) = true) as B.
    { rewrite En, Eb. apply orb_true_iff. destruct H as [H|H]; [left; apply negb_true_iff, N.eqb_neq, H|right; apply N.ltb_lt, H]. }
    rewrite B in Xk. inversion Xk. reflexivity.
  - destruct A as (v & Hv & _). destruct (Rq v Hv).
Qed.
Definition toy_fields (h : full_header) : env_header := {| v_number := number h; v_timestamp := timestamp h; v_gas_limit := 10; v_base_fee := Some 2; v_difficulty := 0; v_mix_hash := []; v_excess_blob_gas := None; v_beneficiary := [] |}.
Definition toy_request (from : bytes) (nonce gas : option N) : request := mk_request (Some from) (Some (Call [1])) None None None None gas None None None nonce None None None None None.
Definition toy_eth_call (r : request) : option (outcome bytes) :=
  eth_call toyHC (listc toyHC) Nc Nc Nc toy_hash EthApi_Props.toy_pre (fun _ => root_hash toy_hash Toy.t) toy_fields (fun _ _ => Ok toy_header_bytes) rlp_decode_node decode_account (fun _ => true) Toy.net
    (fun _ _ => 0) 0 toy_evm true 65 r (ByNumber (Number 1)).
Example C98_example :
  evm_block_state toyHC (listc toyHC) Nc Nc Nc EthApi_Props.toy_pre (fun _ _ => Ok toy_header_bytes) true (ByNumber (Number 1)) = Ok toy_h /\
  state_of toy_hash (fun _ => root_hash toy_hash Toy.t) decode_account Toy.net toy_h Toy.t Toy.storage_of /\
  (forall spec b e, as_asked (toy_fields toy_h) (toy_request [33] None None) e -> modest toy_hash decode_account Toy.t Toy.storage_of [] (toy_evm spec b e)) /\
  toy_eth_call (toy_request [33] None None) = Some (Ok [5; 2]) /\ toy_eth_call (toy_request [1] None None) = Some Err /\ toy_eth_call (toy_request [1] (Some 1) None) = Some (Ok [5; 2]) /\
  toy_eth_call (toy_request [33] None (Some 30)) = Some Err.
Proof.
  split; [vm_compute; reflexivity|]. split.
  { split; [reflexivity|]. split; [exact Toy.is_world|]. destruct C96_example as ((_ & _ & _ & _ & F & G & _) & _). split; [exact G|]. intros ah a A. apply (F ah a A). }
  split.
  { intros spec b e (Hf & Hk & _). unfold toy_evm. cbn [modest]. split; [exact Logic.I|]. intros r Hr. destruct r as [[i|]| |]; try exact Logic.I.
    destruct (negb _ || _); [exact Logic.I|]. rewrite (Hk _ eq_refl). cbn [modest]. split; [exact Logic.I|]. intros r Hr2. destruct r as [[j|]| |]; try exact Logic.I. cbn [modest].
    cbn [EvmState_Spec.right] in Hr2. destruct Hr2 as (a & A & _ & _ & Ec). split; [exists [1], a; rewrite Ec; split; [exact A|]; split; [reflexivity|]; right; left; reflexivity|].
    intros _ _. split; [|intros [| |v] _; exact Logic.I]. cbn [readable]. intros a' A'. apply Toy.known in A' as [[_ ->]|[E _]]; [vm_compute; discriminate|]. vm_compute in E. discriminate. }
  vm_compute. repeat split; reflexivity.
Qed.
