(** The bridge at the head of the chain: /repo/bin/portal-bridge/src/bridge/ephemeral_history/{mod,ephemeral_bundle,gossiper}.rs,
    with /repo/crates/ethereum-rpc-client/src/consensus/mod.rs [first_slot_in_a_period].

    The events of the consensus client and the answers of both clients are an argument: each [Head] comes with its own.  A panic
    while an event is handled stops the bridge; a panic in a task that was spawned stops only the task.  The tasks are given by
    what they offer and in which phases; for their schedules see E2hsBridge_Model.  Not modelled: the metrics, the census
    (Census_Model) and the reconnects of the stream of events. *)
From Verif Require Import Base Keys_Model Ssz_Model Trie_Model Header_Model LegacyHistory_Model Builders_Model Builders_Spec HeadGen_Model.

Section Eph.
Context {tx rct wdl wd : Type}.
Context (HC : codec full_header) (HL : codec (list full_header)) (TC : codec tx) (RC : codec rct) (WC : codec wdl).
Context (keccak : bytes -> bytes) (trie_root : list bytes -> bytes) (sha : bytes -> bytes).
Context (rest : el_header -> bytes) (to_wd : wd -> wdl) (decode_tx : bytes -> outcome tx) (requests_root : list bytes -> bytes).
Context (bloom_root extra_root : bytes -> bytes) (txs_root : list bytes -> bytes) (wds_root : list wd -> bytes) (requests_tree : el_requests -> bytes).
Context (debug : bool).
Notation lower := (lower rest).
Notation block := (el_block wd).
Notation body := (@block_body tx wdl).

(** mod.rs:51-57 [EphemeralHistoryBridge]; the receipts: the one used last is first. *)
Record bridge := { beacon_blocks : list (bytes * block); receipts : list (N * list rct) }.
Definition new_bridge : bridge := {| beacon_blocks := []; receipts := [] |}.
(** 44-49 [TOTAL_BUFFER_COUNT]; 76-81: the capacity of the receipts *)
Definition total_buffer_count : nat := 13.
Definition receipts_capacity : nat := 64.

(** [BTreeMap::get], [insert] and [remove] *)
Fixpoint get_block (root : bytes) (l : list (bytes * block)) : option block :=
  match l with [] => None | (r, b) :: l => if beqb root r then Some b else get_block root l end.
Definition drop_block (root : bytes) (l : list (bytes * block)) : list (bytes * block) := filter (fun x => negb (beqb root (fst x))) l.
Definition put_block (root : bytes) (b : block) (l : list (bytes * block)) : list (bytes * block) := (root, b) :: drop_block root l.
(** [LruCache::get] and [push] *)
Fixpoint cached (n : N) (l : list (N * list rct)) : option (list rct) :=
  match l with [] => None | (k, r) :: l => if n =? k then Some r else cached n l end.
Definition use (n : N) (r : list rct) (l : list (N * list rct)) : list (N * list rct) := (n, r) :: filter (fun x => negb (n =? fst x)) l.
Definition lru_push (n : N) (r : list rct) (l : list (N * list rct)) : list (N * list rct) := firstn receipts_capacity (use n r l).
Definition lru_get (n : N) (l : list (N * list rct)) : option (list rct * list (N * list rct)) :=
  match cached n l with Some r => Some (r, use n r l) | None => None end.

(** [get_beacon_block] of the consensus client; [get_receipts] of the execution client, when it is asked for the block with this root *)
Record clients := { cl_by_root : bytes -> outcome block; el_receipts : bytes -> N -> outcome (list rct) }.

(** 225-253 [get_or_download_beacon_block] *)
Definition get_or_download (c : clients) (s : bridge) (root : bytes) : bridge * outcome block :=
  match get_block root (beacon_blocks s) with
  | Some b => (s, Ok b)
  | None =>
      match cl_by_root c root with
      | Ok b =>
          let n := p_block_number (b_payload b) in
          match el_receipts c root n with
          | Ok r => ({| beacon_blocks := put_block root b (beacon_blocks s); receipts := lru_push n r (receipts s) |}, Ok b)
          | Err => (s, Err)
          | Panic => (s, Panic)
          end
      | Err => (s, Err)
      | Panic => (s, Panic)
      end
  end.
(** 138-147 [process_head] *)
Fixpoint download (k : nat) (c : clients) (s : bridge) (root : bytes) : bridge * outcome unit :=
  match k with
  | O => (s, Ok tt)
  | S k => match get_or_download c s root with
           | (s, Ok b) => download k c s (parent_root b)
           | (s, Err) => (s, Err)
           | (s, Panic) => (s, Panic)
           end
  end.
Definition process_head (c : clients) (s : bridge) (root : bytes) : bridge * outcome unit := download total_buffer_count c s root.

(** ** The bundle *)
Notation item := (el_header * body * list rct)%type.
Notation tree_of := (tree_of bloom_root extra_root txs_root wds_root requests_tree).
(** [tree_hash_root] of a block of Electra *)
Definition root_of (b : block) : bytes := beacon_root sha (tree_of Electra b).
(** [expect] *)
Definition expect {A} (x : outcome A) : outcome A := match x with Err => Panic | _ => x end.
Definition expect_some {A} (x : option A) : outcome A := match x with Some a => Ok a | None => Panic end.
(** ephemeral_bundle.rs:34-43 [next_parent_root] *)
Definition next_parent_root (head : bytes) (l : list item) : outcome bytes :=
  match rev l with [] => Ok head | (h, _, _) :: _ => expect_some (e_parent_beacon_block_root h) end.
(** 45-83 [push_parent] *)
Definition push_parent (head : bytes) (l : list item) (b : block) (r : list rct) : outcome (list item) :=
  obind (next_parent_root head l) (fun next =>
  if negb (beqb next (root_of b)) then Err
  else obind (expect (decode_transactions decode_tx (p_transactions (b_payload b)))) (fun txs =>
       let ws := map to_wd (p_withdrawals (b_payload b)) in
       obind (expect (header_electra TC WC trie_root (fun h => hash_slow HC keccak (lower h)) (keccak (enc HL [])) requests_root (b_payload b) (parent_root b) txs ws (requests b))) (fun h =>
       Ok (l ++ [(h, {| transactions := txs; ommers := []; withdrawals := Some ws |}, r)])))).
(** mod.rs:255-285 [append_next_block_to_ephemeral_bundle] *)
Definition append_next (s : bridge) (head : bytes) (l : list item) : bridge * outcome (list item) :=
  match next_parent_root head l with
  | Ok next =>
      match get_block next (beacon_blocks s) with
      | None => (s, Err)
      | Some b =>
          match lru_get (p_block_number (b_payload b)) (receipts s) with
          | None => (s, Err)
          | Some (r, rs) => ({| beacon_blocks := beacon_blocks s; receipts := rs |}, push_parent head l b r)
          end
      end
  | Err => (s, Err)
  | Panic => (s, Panic)
  end.
Fixpoint append_many (k : nat) (s : bridge) (head : bytes) (l : list item) : bridge * outcome (list item) :=
  match k with
  | O => (s, Ok l)
  | S k => match append_next s head l with
           | (s, Ok l) => append_many k s head l
           | (s, Err) => (s, Err)
           | (s, Panic) => (s, Panic)
           end
  end.
(** 149-178 [process_light_client_optimistic_update]; [head]: the root of the attested header.  [None]: there are no blocks yet. *)
Definition process_update (s : bridge) (head : bytes) : bridge * outcome (option (list item)) :=
  match beacon_blocks s with
  | [] => (s, Ok None)
  | _ => let (s, r) := append_many total_buffer_count s head [] in (s, omap Some r)
  end.

(** ** Finalized periods *)
Definition u64_max : N := 2 ^ 64.
(** Subtraction and multiplication of [u64]s *)
Definition sub64 (a b : N) : outcome N := if b <=? a then Ok (a - b) else if debug then Panic else Ok (a + u64_max - b).
Definition mul64 (a b : N) : outcome N := if a * b <? u64_max then Ok (a * b) else if debug then Panic else Ok ((a * b) mod u64_max).
(** mod.rs:200-208: the loop.  There are no more rounds than blocks.  [None]: a block of another period *)
Fixpoint take_back (k : nat) (first : N) (l : list (bytes * block)) (root : bytes) : list (bytes * block) * option (list block) :=
  match k with
  | O => (l, Some [])
  | S k =>
      match get_block root l with
      | None => (l, Some [])
      | Some b =>
          let l := drop_block root l in
          if first_slot_in_a_period (b_slot b) =? first then
            let (l, r) := take_back k first l (parent_root b) in (l, option_map (cons b) r)
          else (l, None)
      end
  end.
(** 180-223 [process_finalized_checkpoint].  [None]: it is not the last of a period. *)
Definition process_finalized (s : bridge) (epoch : N) (root : bytes) : bridge * outcome (option (list block)) :=
  if negb (epoch mod 256 =? 0) then (s, Ok None)
  else match get_block root (beacon_blocks s) with
       | None => (s, Err)
       | Some b =>
           match obind (sub64 epoch 1) (fun e => mul64 e 32) with
           | Ok last =>
               let (l, r) := take_back (S (length (beacon_blocks s))) (first_slot_in_a_period last) (beacon_blocks s) (parent_root b) in
               match r with
               | None => ({| beacon_blocks := l; receipts := receipts s |}, Err)
               | Some blocks =>
                   match l, mul64 epoch 32 with
                   | _ :: _, Ok m => ({| beacon_blocks := filter (fun x => m <=? b_slot (snd x)) l; receipts := receipts s |}, Ok (Some blocks))
                   | _ :: _, _ => ({| beacon_blocks := l; receipts := receipts s |}, Panic)
                   | [], _ => ({| beacon_blocks := []; receipts := receipts s |}, Ok (Some blocks))
                   end
               end
           | Err => (s, Err)
           | Panic => (s, Panic)
           end
       end.

(** ** The loop *)
Inductive event :=
| Head (c : clients) (root : bytes)
| Update (attested : bytes)
| Finalized (epoch : N) (root state : bytes).
(** What comes of an event: the task that is spawned, or an error that is logged *)
Inductive reply := Nothing | Failed | GossipBundle (head : bytes) (l : list item) | GossipProven (state : bytes) (l : list block).
(** 87-136 [launch]: one round; [None]: a panic *)
Definition step (s : bridge) (e : event) : bridge * option reply :=
  match e with
  | Head c root => let (s, r) := process_head c s root in (s, match r with Ok _ => Some Nothing | Err => Some Failed | Panic => None end)
  | Update head => let (s, r) := process_update s head in
      (s, match r with Ok (Some l) => Some (GossipBundle head l) | Ok None => Some Nothing | Err => Some Failed | Panic => None end)
  | Finalized epoch root state => let (s, r) := process_finalized s epoch root in
      (s, match r with Ok (Some l) => Some (GossipProven state l) | Ok None => Some Nothing | Err => Some Failed | Panic => None end)
  end.
(** 87-136 [launch]: the state after the events, if there was no panic *)
Fixpoint after (s : bridge) (l : list event) : option bridge :=
  match l with
  | [] => Some s
  | e :: l => let (s', r) := step s e in match r with Some _ => after s' l | None => None end
  end.

(** ** What the tasks offer *)
(** gossiper.rs:338-350 [gossip_content_header_series]: one offer of all the headers *)
Definition header_series (l : list item) : list (legacy_key * outcome bytes) :=
  map (fun x => let '(h, _, _) := x in (EphemeralHeaderOffer (hash_slow HC keccak (lower h)), legacy_encode HC HL TC RC WC (VOffer (lower h)))) l.
(** 72-129 [gossip_ephemeral_bundle]: after it, the bodies and the receipts *)
Definition bundle_contents (l : list item) : list (legacy_key * outcome bytes) :=
  map (fun x => let '(h, b, _) := x in (BlockBody (hash_slow HC keccak (lower h)), legacy_encode HC HL TC RC WC (VBody b))) l ++
  map (fun x => let '(h, _, r) := x in (BlockReceipts (hash_slow HC keccak (lower h)), legacy_encode HC HL TC RC WC (VReceipts r))) l.
(** 133-177 [gossiped_non_ephemeral_headers]: the tasks that were spawned before a panic go on. *)
Fixpoint proven_contents (block_roots state_roots : list bytes) (l : list block) : list (legacy_key * outcome bytes) * outcome unit :=
  match l with
  | [] => ([], Ok tt)
  | b :: l =>
      match build TC WC to_wd decode_tx trie_root (fun h => hash_slow HC keccak (lower h)) (keccak (enc HL [])) requests_root sha bloom_root extra_root txs_root wds_root requests_tree Electra b block_roots state_roots with
      | Ok (h, p, _) =>
          let v := legacy_encode HC HL TC RC WC (VHeader (lower h, p)) in
          let (r, o) := proven_contents block_roots state_roots l in
          ((BlockHeaderByHash (hash_slow HC keccak (lower h)), v) :: (BlockHeaderByNumber (number (lower h)), v) :: r, o)
      | _ => ([], Panic)
      end
  end.
(** [st]: what is served for the state *)
Definition gossip_proven (st : outcome beacon_state) (l : list block) : list (legacy_key * outcome bytes) * outcome unit :=
  match st with
  | Ok st => proven_contents (st_block_roots st) (st_state_roots st) l
  | _ => ([], Panic)
  end.
End Eph.
Arguments bridge : clear implicits.
Arguments clients : clear implicits.
Arguments event : clear implicits.
Arguments reply : clear implicits.
