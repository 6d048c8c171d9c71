(** Vocabulary for the history files that are written. *)
From Verif Require Import Base Merkle_Spec Header_Model Header_Spec Header_Props LegacyHistory_Model LegacyHistory_Spec E2Store_Model EraFiles_Model EraFiles_Spec Builders_Model Builders_Spec Builders_Props E2hsWriter_Model.

Section Spec.
Context {tx rct wdl wd : Type}.
Context (HC : codec full_header) (HL : codec (list full_header)) (TC : codec tx) (RC : codec rct) (WC : codec wdl).
Context (keccak : bytes -> bytes) (trie_root : list bytes -> bytes) (sha : bytes -> bytes) (fk : forks).
Notation block := (@tuple3 (full_header * header_proof) (@block_body tx wdl) (list rct)).

(** A block with the number [n] whose parts belong together *)
Record consistent (n : N) (t : block) : Prop := {
  is_number : number (fst (u_header t)) = n;
  is_uncles : same_uncles HL keccak (u_body t) (fst (u_header t));
  is_transactions : same_transactions TC trie_root (u_body t) (fst (u_header t));
  is_withdrawals : same_withdrawals WC trie_root (u_body t) (fst (u_header t)) \/ n < paris_block fk /\ withdrawals (u_body t) = None;
  is_receipts : trie_root (map (enc RC) (u_receipts t)) = receipts_root (fst (u_header t)) }.
(** The proof shows that the block is in the chain. *)
Definition in_chain (c : chain) (t : block) : Prop :=
  let h := fst (u_header t) in proof_ok (snd (u_header t)) -> backed sha fk c (number h) (timestamp h) (keccak (enc HC h)) (snd (u_header t)).
End Spec.

(** ** Honest servers *)
Section Honest.
Context {tx rct wdl wd : Type}.
(** The execution numbers in an era file start with [lo] and end with [hi]. *)
Definition spans (e : era_view wd) (lo hi : N) : Prop :=
  exists b r, ev_blocks e = b :: r /\ p_block_number (b_payload (snd b)) = lo /\ p_block_number (b_payload (snd (last r b))) = hi.
Definition has_block (e : era_view wd) (n : N) : Prop := exists f b, In (f, b) (ev_blocks e) /\ p_block_number (b_payload b) = n.
(** There are the era files from 574 to [top]; each goes on where the one before has ended. *)
Record eras_ok (fk : forks) (w : world tx rct wdl wd) (top : N) (lo hi : N -> N) : Prop := {
  top_era : w_last w = Some top /\ 574 <= top;
  all_linked : forall k, 574 <= k <= top -> w_linked w k = true;
  all_eras : forall k, 574 <= k <= top -> w_first w k = Ok (lo k) /\ exists e, w_era w k = Ok e /\ ev_index e = k /\ spans e (lo k) (hi k) /\
    forall n, paris_block fk <= n -> lo k <= n <= hi k -> has_block e n;
  in_order : forall k, 574 <= k <= top -> lo k <= hi k;
  adjacent : forall k, 574 <= k < top -> lo (k + 1) = hi k + 1;
  merge : 0 < paris_block fk /\ lo 574 <= paris_block fk }.

(** Everything that is needed for the file of [index] is served: blocks, proofs and receipts of the chain [c].  The blocks are
    in at most three files.  The era file with the last block has the summaries for all of them. *)
Context (HC : codec full_header) (HL : codec (list full_header)) (TC : codec tx) (RC : codec rct) (WC : codec wdl).
Context (keccak : bytes -> bytes) (trie_root : list bytes -> bytes) (sha : bytes -> bytes) (fk : forks).
Context (rest : el_header -> bytes) (to_wd : wd -> wdl) (decode_tx : bytes -> outcome tx) (requests_root : list bytes -> bytes).
Context (bloom_root extra_root : bytes -> bytes) (txs_root : list bytes -> bytes) (wds_root : list wd -> bytes) (requests_tree : el_requests -> bytes).
Context (debug : bool) (fits : @tuple3 (full_header * header_proof) (@block_body tx wdl) (list rct) -> Prop).
Definition summaries_in (e : era_view wd) : list summary := match ev_summaries e with Some l => l | None => [] end.
Record serves (c : chain) (w : world tx rct wdl wd) (index : N) (receipts : N -> list rct) (top : N) (lo hi : N -> N) : Prop := {
  s_latest : exists l, w_latest w = Ok l /\ index <= l / 8192;
  s_receipts : forall l, w_receipts w l = Ok (map (fun n => Ok (receipts n)) l);
  s_era1 : index * 8192 < paris_block fk -> exists e ts,
    nth_error (epochs c) (N.to_nat index) = Some e /\ blen e <= 8192 /\ w_accumulator w index = Ok e /\
    w_era1 w index = Ok ts /\ blen ts = N.min 8192 (paris_block fk - index * 8192) /\
    forall i t, nth_error ts i = Some t -> number (t_header t) = index * 8192 + N.of_nat i /\
      (exists r, nth_error e i = Some r /\ block_hash r = keccak (enc HC (t_header t))) /\
      body_of HL TC WC keccak trie_root (t_body t) (t_header t) /\ receipts_root (t_header t) = trie_root (map (enc RC) (t_receipts t)) /\
      forall p, construct_proof sha debug (view HC keccak (t_header t)) e = Ok p -> fits (mk_tuple3 (t_header t, HistoricalHashes p) (t_body t) (t_receipts t));
  s_eras : paris_block fk < index * 8192 + 8192 -> eras_ok fk w top lo hi /\
    exists k m, 574 <= k /\ k + m <= top /\ lo k <= N.max (index * 8192) (paris_block fk) <= hi k /\ index * 8192 + 8191 <= hi (k + m) /\
      m + (if index * 8192 <? paris_block fk then 2 else 1) <= 3;
  s_block : forall k e f b, w_era w k = Ok e -> In (f, b) (ev_blocks e) ->
    let n := p_block_number (b_payload b) in
    paris_block fk <= n -> index * 8192 <= n < index * 8192 + 8192 ->
    hashes_ok b /\ in_fork fk f n (p_timestamp (b_payload b)) /\
    (exists ba, period c f (b_slot b) ba /\ ev_block_roots e = block_roots ba /\ ev_state_roots e = state_roots ba /\
       nth_error (block_roots ba) (N.to_nat (b_slot b mod 8192)) = Some (block_tree sha (depth_of f) (tree_of bloom_root extra_root txs_root wds_root requests_tree f b))) /\
    (forall k' e', w_era w k' = Ok e' -> lo k' <= index * 8192 + 8191 <= hi k' -> honest sha c (Some (summaries_in e')) /\ knows sha c f (b_slot b) (Some (summaries_in e'))) /\
    p_receipts_root (b_payload b) = trie_root (map (enc RC) (receipts n)) /\
    exists txs h, decoded decode_tx b txs /\ describes TC WC to_wd trie_root (keccak (enc HL [])) requests_root f b txs h /\ p_block_hash (b_payload b) = keccak (enc HC (lower rest h)) /\
      forall p body, p = proof_for sha bloom_root extra_root txs_root wds_root requests_tree f b (ev_block_roots e) (ev_state_roots e) -> carries to_wd f b txs body -> fits (mk_tuple3 (lower rest h, p) body (receipts n)) }.
End Honest.
