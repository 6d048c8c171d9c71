(** Walking a state trie and turning it into content:
    /repo/bin/trin-execution/src/trie_walker/{filter,mod}.rs, utils.rs, content.rs and
    types/trie_proof.rs, and [gossip_trie_diff] and [gossip_whole_state_snapshot] of
    /repo/bin/portal-bridge/src/bridge/state.rs with [BridgeId] of cli.rs.

    [keccak256], [decode_node] of [eth_trie], the RLP decoder of accounts and the databases are
    arguments.  Of the offers only the content key and value are modelled, not their sending. *)
From Verif Require Import Base Keys_Model Trie_Model StateContent_Model.

(** ** utils.rs *)

(** [result[i] |= v]; an index out of range panics. *)
Fixpoint or_at (l : bytes) (i : nat) (v : N) : outcome bytes :=
  match l, i with
  | [], _ => Panic
  | b :: r, O => Ok (N.lor b v :: r)
  | b :: r, S i' => omap (cons b) (or_at r i' v)
  end.
(** utils.rs:16-22: the loop; [nibble << 4] on [u8]. *)
Fixpoint put_nibbles (i : nat) (nibbles result : bytes) : outcome bytes :=
  match nibbles with
  | [] => Ok result
  | n :: r =>
      obind (or_at result (i / 2) (if Nat.eqb (i mod 2) 0 then N.shiftl n 4 mod 256 else n))
        (put_nibbles (S i) r)
  end.
(** utils.rs:14-24 [nibbles_to_right_padded_b256] *)
Definition nibbles_to_right_padded_b256 (nibbles : bytes) : outcome bytes := put_nibbles 0 nibbles (repeat 0 32).
(** utils.rs:3-12 [full_nibble_path_to_address_hash] *)
Definition full_nibble_path_to_address_hash (key_path : bytes) : outcome bytes :=
  if negb (blen key_path =? 64) then Panic else nibbles_to_right_padded_b256 key_path.

(** ** filter.rs *)

Definition u256_max : N := 2 ^ 256 - 1.
(** filter.rs:6-10 *)
Record filter := mk_filter { f_start : N; f_end : N }.
(** filter.rs:15-39 [Filter::new]; the arguments are [u16], and arithmetic on [U256] wraps. *)
Definition filter_new (slice_index slice_count : N) : outcome filter :=
  if (slice_count =? 0) || (slice_count =? 1) then Ok (mk_filter 0 u256_max)
  else if negb (slice_index <? slice_count) then Panic
  else
    let slice_size := (u256_max / slice_count + 1) mod 2 ^ 256 in
    let start := slice_index * slice_size mod 2 ^ 256 in
    Ok (mk_filter start
          (if slice_index =? slice_count - 1 then u256_max
           else (start + slice_size + 2 ^ 256 - 1) mod 2 ^ 256)).
(** [U256 >> n] and [U256 << n] *)
Definition cut_low (x shift : N) : N := N.shiftl (N.shiftr x shift) shift mod 2 ^ 256.
(** filter.rs:54-64 [Filter::contains] *)
Definition filter_contains (f : filter) (path : bytes) : outcome bool :=
  if 256 <? blen path * 4 then Panic
  else
    let shift := 256 - blen path * 4 in
    omap (fun b => (cut_low (f_start f) shift <=? be_num b) && (be_num b <=? cut_low (f_end f) shift))
      (nibbles_to_right_padded_b256 path).

(** ** mod.rs *)

(** types/trie_proof.rs:5-9 [TrieProof] *)
Record trie_proof := mk_tp { tp_path : bytes; tp_proof : list bytes }.

Section Walk.
Context (decode_node : bytes -> outcome node).
(** db.rs:8-10 [TrieWalkerDb::get]; reading does not fail. *)
Context (db : bytes -> option bytes).

(** mod.rs:22-29 [TrieWalker]; the last element of the [Vec] is the head of the stack. *)
Record walker := mk_walker { is_partial_trie : bool; stack : list trie_proof; wfilter : option filter }.
(** mod.rs:32-48 [new] *)
Definition walker_new (root_hash : bytes) (f : option filter) : outcome walker :=
  match db root_hash with
  | Some root => Ok (mk_walker false [mk_tp [] [root]] f)
  | None => Err
  end.
(** mod.rs:50-77 [new_partial_trie] *)
Definition walker_new_partial (root_hash : bytes) : outcome walker :=
  Ok (mk_walker true (match db root_hash with Some root => [mk_tp [] [root]] | None => [] end) None).

(** mod.rs:79-122 [process_node], up to the [expect]s of its callers. *)
Definition process_node (w : walker) (n : node) (partial_proof : list bytes) (path : bytes) : outcome walker :=
  obind (match wfilter w with Some f => filter_contains f path | None => Ok true end) (fun inside =>
  if negb inside then Ok w
  else match n with
       | NHash h =>
           match db h with
           | None => if is_partial_trie w then Ok w else Panic
           | Some enc =>
               match decode_node enc with
               | Ok NEmpty | Ok (NHash _) | Err | Panic => Panic
               | Ok _ => Ok (mk_walker (is_partial_trie w) (mk_tp path (partial_proof ++ [enc]) :: stack w) (wfilter w))
               end
           end
       | _ => Ok w
       end).
(** mod.rs:154-163: children with their indices, last first. *)
Fixpoint process_children (w : walker) (l : list (nat * node)) (proof : list bytes) (path : bytes) : outcome walker :=
  match l with
  | [] => Ok w
  | (i, c) :: r => obind (process_node w c proof (path ++ [N.of_nat i])) (fun w => process_children w r proof path)
  end.
Definition enumerate {A} (l : list A) : list (nat * A) := combine (seq 0 (length l)) l.
(** mod.rs:128-170 [next] *)
Definition walker_next (w : walker) : outcome (option (trie_proof * walker)) :=
  match stack w with
  | [] => Ok None
  | top :: rest =>
      let w' := mk_walker (is_partial_trie w) rest (wfilter w) in
      match tp_proof top with
      | [] => Panic
      | _ =>
          match decode_node (last (tp_proof top) []) with
          | Ok n =>
              omap (fun w => Some (top, w))
                (match n with
                 | NExt prefix child => process_node w' child (tp_proof top) (tp_path top ++ prefix)
                 | NBranch children _ => process_children w' (rev (enumerate children)) (tp_proof top) (tp_path top)
                 | _ => Ok w'
                 end)
          | _ => Panic
          end
      end
  end.
(** [for proof in walker]: the items, if there is no panic and an end is reached. *)
Inductive walks : walker -> list trie_proof -> Prop :=
| walks_end w : walker_next w = Ok None -> walks w []
| walks_more w i w' l : walker_next w = Ok (Some (i, w')) -> walks w' l -> walks w (i :: l).
End Walk.

(** ** content.rs *)
Section Content.
Context (keccak : bytes -> bytes).
(** state_trie/mod.rs:40-44 and types/trie_proof.rs:11-21: nodes are cut at 1024 bytes and proofs
    at 65 nodes ([VariableList::from]). *)
Definition to_proof (p : trie_proof) : list bytes := firstn 65 (map (firstn 1024) (tp_proof p)).
Definition last_of (p : trie_proof) : outcome bytes :=
  match tp_proof p with [] => Err | l => Ok (last l []) end.
(** content.rs:17-27 [create_account_content_key] *)
Definition account_content_key (p : trie_proof) : outcome state_key :=
  obind (last_of p) (fun node => omap (fun path => AccountTrieNode path (keccak node)) (try_from_unpacked (tp_path p))).
(** content.rs:29-39 *)
Definition account_content_value (block_hash : bytes) (p : trie_proof) : state_value :=
  AccountTrieNodeWithProof (to_proof p) block_hash.
(** content.rs:41-49 *)
Definition contract_content_key (address_hash code_hash : bytes) : state_key := ContractBytecode address_hash code_hash.
(** content.rs:51-63; [code] is the original bytes of the bytecode, cut at 32768. *)
Definition contract_content_value (block_hash : bytes) (p : trie_proof) (code : bytes) : state_value :=
  BytecodeWithProof (firstn (N.to_nat 32768) code) (to_proof p) block_hash.
(** content.rs:65-81 *)
Definition storage_content_key (p : trie_proof) (address_hash : bytes) : outcome state_key :=
  obind (last_of p) (fun node => omap (fun path => ContractStorageTrieNode address_hash path (keccak node)) (try_from_unpacked (tp_path p))).
(** content.rs:83-95 *)
Definition storage_content_value (block_hash : bytes) (account_proof storage_proof : trie_proof) : state_value :=
  ContractStorageTrieNodeWithProof (to_proof storage_proof) (to_proof account_proof) block_hash.
End Content.

(** ** The bridge *)

(** cli.rs:202-213 [BridgeId::is_selected]; [id] and [total] are positive. *)
Definition is_selected (id total index : N) : bool :=
  if total =? 1 then true else index mod total =? id - 1.

Section Contents.
Context (keccak : bytes -> bytes) (decode_node : bytes -> outcome node) (decode_account : bytes -> outcome account).
Context (block_hash : bytes).
Definition content := (state_key * state_value)%type.
(** state.rs:330-340, 431-441: the storage of an account. *)
Fixpoint storage_contents (address_hash : bytes) (account_proof : trie_proof) (items : list trie_proof) : outcome (list content) :=
  match items with
  | [] => Ok []
  | p :: r =>
      obind (storage_content_key keccak p address_hash) (fun k =>
      omap (cons (k, storage_content_value block_hash account_proof p)) (storage_contents address_hash account_proof r))
  end.

(** Where the code of a hash and the storage nodes of an account are read, and the walk over them. *)
Context (code_by : bytes -> outcome (option bytes)) (storage_db : bytes -> bytes -> option bytes)
        (storage_walker : bytes -> bytes -> outcome (option walker)).
(** state.rs:279-341 and 365-443: what one item of the walk over the accounts gives.  A relation,
    because the walk over the storage is one. *)
Inductive item_contents (p : trie_proof) : list content -> Prop :=
| item_other key n :
    account_content_key keccak p = Ok key -> decode_node (last (tp_proof p) []) = Ok n ->
    (forall k v, n <> NLeaf k v) ->
    item_contents p [(key, account_content_value block_hash p)]
| item_leaf key k v a address code ow items storage :
    account_content_key keccak p = Ok key -> decode_node (last (tp_proof p) []) = Ok (NLeaf k v) ->
    decode_account v = Ok a ->
    full_nibble_path_to_address_hash (tp_path p ++ removelast k) = Ok address ->
    (if beqb (code_hash a) (keccak []) then Ok None else code_by (code_hash a)) = Ok code ->
    storage_walker address (storage_root a) = Ok ow ->
    match ow with None => items = [] | Some w => walks decode_node (storage_db address) w items end ->
    storage_contents address p items = Ok storage ->
    item_contents p ((key, account_content_value block_hash p) ::
      match code with
      | Some c => [(contract_content_key address (code_hash a), contract_content_value block_hash p c)]
      | None => []
      end ++ storage).
(** The loops over the accounts: all contents in order. *)
Inductive all_contents : list trie_proof -> list content -> Prop :=
| all_nil : all_contents [] []
| all_cons p r c cs : item_contents p c -> all_contents r cs -> all_contents (p :: r) (c ++ cs).
End Contents.

Section Sources.
Context (keccak : bytes -> bytes) (decode_node : bytes -> outcome node) (decode_account : bytes -> outcome account).
Context (block_hash : bytes).
(** state.rs:350-448 [gossip_whole_state_snapshot]: [db] has accounts' nodes and codes, [account_db]
    the storage nodes of an account. *)
Definition snapshot_contents (db : bytes -> option bytes) (account_db : bytes -> bytes -> option bytes) (empty_root : bytes)
  (root : bytes) (cs : list content) : Prop :=
  exists w items, walker_new db root None = Ok w /\ walks decode_node db w items /\
    all_contents keccak decode_node decode_account block_hash
      (fun h => match db h with Some c => Ok (Some c) | None => Err end) account_db
      (fun address root => if beqb root empty_root then Ok None else omap Some (walker_new (account_db address) root None))
      items cs.
(** state.rs:259-348 [gossip_trie_diff]: the nodes, codes and storage nodes that a block created. *)
Definition diff_contents (diff newly_created : bytes -> option bytes) (storage_diff : bytes -> bytes -> option bytes)
  (root : bytes) (cs : list content) : Prop :=
  exists w items, walker_new_partial diff root = Ok w /\ walks decode_node diff w items /\
    all_contents keccak decode_node decode_account block_hash
      (fun h => Ok (newly_created h)) storage_diff
      (fun address root => omap Some (walker_new_partial (storage_diff address) root))
      items cs.
End Sources.
(** state.rs:456-459, 475-478, 493-496: the content with index [i] is offered by the bridge that
    selects [i]. *)
Definition offered (id total : N) (cs : list content) : list content :=
  map snd (List.filter (fun x => is_selected id total (N.of_nat (fst x))) (enumerate cs)).
