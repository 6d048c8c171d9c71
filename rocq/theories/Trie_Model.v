(** Merkle-Patricia trie nodes and proofs:
    /repo/crates/ethportal-api/src/types/state_trie/{mod,trie_traversal,utils}.rs and
    /repo/crates/subnetworks/state/src/validation/{trie,error}.rs.

    [keccak256] is an argument, and so is [decode_node] of the [eth_trie] crate, which is outside
    /repo: it may return any node, fail or panic.  [rlp_decode_node] at the end is a decoder
    written after the yellow paper, used to show that the decoders the theorems ask for exist. *)
From Verif Require Import Base Keys_Model.

(** [eth_trie::node::Node]; a leaf's key ends with 16 (utils.rs and trie_traversal.rs rely on it),
    [children] is an array of 16. *)
Inductive node :=
| NEmpty
| NLeaf (key : bytes) (value : bytes)
| NExt (prefix : bytes) (child : node)
| NBranch (children : list node) (value : option bytes)
| NHash (h : bytes).

(** [slice::split_last] *)
Definition split_last (l : bytes) : option (bytes * N) :=
  match rev l with [] => None | x :: r => Some (rev r, x) end.
(** [slice::strip_prefix] *)
Fixpoint strip_prefix (prefix path : bytes) : option bytes :=
  match prefix, path with
  | [], _ => Some path
  | x :: p, y :: q => if x =? y then strip_prefix p q else None
  | _ :: _, [] => None
  end.
Definition is_nil {A} (l : list A) : bool := match l with [] => true | _ => false end.

(** trie_traversal.rs:41-51 [TraversalResult]; the details of [Empty] and [Error] are dropped,
    and [TrPanic] is the out-of-range index at line 98. *)
Inductive traversal :=
| TrEmpty
| TrValue (v : bytes)
| TrNode (h : bytes) (remaining : bytes)
| TrError
| TrPanic.

(** trie_traversal.rs:59-114 [traverse]; lock poisoning does not occur (the node was just
    decoded and nobody else holds it). *)
Fixpoint traverse (n : node) (path : bytes) {struct n} : traversal :=
  match n with
  | NEmpty => TrEmpty
  | NLeaf key value =>
      match split_last key with
      | None => TrError
      | Some (nibbles, last) =>
          if negb (last =? 16) then TrError
          else if is_nil nibbles then TrError
          else if negb (beqb nibbles path) then TrEmpty
          else TrValue value
      end
  | NExt prefix child =>
      if is_nil prefix then TrError
      else match strip_prefix prefix path with
           | Some remaining => traverse child remaining
           | None => TrEmpty
           end
  | NBranch children value =>
      match path with
      | first :: remaining =>
          (fix pick (l : list node) (i : nat) {struct l} : traversal :=
             match l with
             | [] => TrPanic
             | c :: l' => match i with O => traverse c remaining | S i' => pick l' i' end
             end) children (N.to_nat first)
      | [] => match value with Some v => TrValue v | None => TrEmpty end
      end
  | NHash h => TrNode h path
  end.

(** ** RLP, as written by the [alloy_rlp] crate *)

(** [to_be_bytes] without leading zeros *)
Fixpoint trim (l : bytes) : bytes :=
  match l with 0 :: r => trim r | _ => l end.
(** [Header::encode] *)
Definition rlp_header (list : bool) (len : N) : bytes :=
  if len <? 56 then [(if list then 192 else 128) + len]
  else let l := trim (be_bytes 8 len) in ((if list then 247 else 183) + blen l) :: l.
(** [<[u8] as Encodable>::encode] *)
Definition rlp_bytes (b : bytes) : bytes :=
  match b with
  | [x] => if x <? 128 then [x] else rlp_header false 1 ++ b
  | _ => rlp_header false (blen b) ++ b
  end.
(** utils.rs:48-54, 73-79, 96-102: the header of a list, then the list. *)
Definition rlp_list (payload : bytes) : bytes := rlp_header true (blen payload) ++ payload.

(** [eth_trie::nibbles::Nibbles::is_leaf]: the last element is 16. *)
Definition leaf_key (key : bytes) : option bytes :=
  match split_last key with
  | Some (nibbles, last) => if last =? 16 then Some nibbles else None
  | None => None
  end.
(** [eth_trie::nibbles::Nibbles::encode_compact], the hex-prefix encoding. *)
Definition compact (flag : N) (nibbles : bytes) : bytes :=
  if blen nibbles mod 2 =? 0 then 16 * flag :: pack_pairs nibbles
  else match nibbles with
       | [] => []
       | n :: r => (16 * (flag + 1) + n) :: pack_pairs r
       end.
Definition encode_compact (key : bytes) : bytes :=
  match leaf_key key with Some nibbles => compact 2 nibbles | None => compact 0 key end.

Section Trie.
Context (keccak : bytes -> bytes) (decode_node : bytes -> outcome node).

(** utils.rs:24-38 [write_node]: what a parent contains for a child. *)
Definition write_node (encode_raw : node -> bytes) (n : node) : bytes :=
  match n with
  | NHash h => rlp_bytes h
  | _ => let data := encode_raw n in
         if blen data <? 32 then data else rlp_bytes (keccak data)
  end.
(** utils.rs:40-106 [encode_raw].  [NHash] is unreachable: [write_node] does not call it, and see
    [encode_node]. *)
Fixpoint encode_raw (n : node) : bytes :=
  match n with
  | NEmpty => [128]
  | NLeaf key value => rlp_list (rlp_bytes (encode_compact key) ++ rlp_bytes value)
  | NBranch children value =>
      rlp_list (concat (map (fun c => write_node encode_raw c) children) ++
                match value with Some v => rlp_bytes v | None => [128] end)
  | NExt prefix child => rlp_list (rlp_bytes (encode_compact prefix) ++ write_node encode_raw child)
  | NHash _ => []
  end.
(** utils.rs:12-14 [encode_node]; mod.rs:52-56 keeps at most 1024 bytes ([ByteList1024::from]
    cuts the rest). *)
Definition encode_node (n : node) : outcome bytes :=
  match n with NHash _ => Panic | _ => Ok (firstn 1024 (encode_raw n)) end.

(** error.rs:43-55 [check_node_hash] *)
Definition check_node_hash (node hash : bytes) : outcome unit :=
  if beqb (keccak node) hash then Ok tt else Err.

(** trie.rs:77-90: the loop of [validate_trie_proof]. *)
Fixpoint follow (node remaining : bytes) (nodes : list bytes) : outcome (bytes * bytes) :=
  match nodes with
  | [] => Ok (node, remaining)
  | next :: r =>
      obind (decode_node node) (fun n =>
        match traverse n remaining with
        | TrNode h remaining' =>
            obind (check_node_hash next h) (fun _ => follow next remaining' r)
        | TrPanic => Panic
        | _ => Err
        end)
  end.
(** trie.rs:57-93 [validate_trie_proof] *)
Definition validate_trie_proof (root : option bytes) (path : bytes) (proof : list bytes) : outcome (bytes * bytes) :=
  match proof with
  | [] => Err
  | first :: nodes =>
      obind (match root with Some h => check_node_hash first h | None => Ok tt end) (fun _ =>
        follow first path nodes)
  end.
(** trie.rs:15-33 [validate_node_trie_proof] *)
Definition validate_node_trie_proof (root : option bytes) (node_hash path : bytes) (proof : list bytes) : outcome unit :=
  obind (validate_trie_proof root path proof) (fun x =>
    if negb (is_nil (snd x)) then Err else check_node_hash (fst x) node_hash).

(** trie.rs:36-54 [validate_account_state].  [decode_account] is the derived RLP decoder of
    [AccountState] (account_state.rs:10-16). *)
Definition validate_account_state {account} (decode_account : bytes -> outcome account)
  (root : option bytes) (address_hash : bytes) (proof : list bytes) : outcome account :=
  obind (validate_trie_proof root (unpack_nibbles address_hash) proof) (fun x =>
  obind (decode_node (fst x)) (fun n =>
    match traverse n (snd x) with
    | TrValue v => decode_account v
    | TrPanic => Panic
    | _ => Err
    end)).
End Trie.

(** ** A decoder of nodes *)

(** The first item of the input: whether it is a list, its payload, and what follows. *)
Definition rlp_take (list : bool) (len : N) (r : bytes) : option (bool * bytes * bytes) :=
  if blen r <? len then None else Some (list, firstn (N.to_nat len) r, skipn (N.to_nat len) r).
Definition rlp_long (list : bool) (n : N) (r : bytes) : option (bool * bytes * bytes) :=
  if blen r <? n then None
  else rlp_take list (be_num (firstn (N.to_nat n) r)) (skipn (N.to_nat n) r).
Definition rlp_split (b : bytes) : option (bool * bytes * bytes) :=
  match b with
  | [] => None
  | x :: r =>
      if x <? 128 then Some (false, [x], r)
      else if x <? 184 then rlp_take false (x - 128) r
      else if x <? 192 then rlp_long false (x - 183) r
      else if x <? 248 then rlp_take true (x - 192) r
      else rlp_long true (x - 247) r
  end.
(** The items of a list: kind, payload and whole encoding of each. *)
Fixpoint rlp_items (fuel : nat) (b : bytes) : option (list (bool * bytes * bytes)) :=
  match b, fuel with
  | [], _ => Some []
  | _, O => None
  | _, S f =>
      match rlp_split b with
      | None => None
      | Some (k, payload, rest) =>
          match rlp_items f rest with
          | Some l => Some ((k, payload, firstn (length b - length rest) b) :: l)
          | None => None
          end
      end
  end.
(** The hex-prefix decoding; a leaf's key gets a final 16. *)
Definition from_compact (c : bytes) : outcome (bool * bytes) :=
  match c with
  | [] => Panic
  | f :: r =>
      let flag := N.shiftr f 4 in
      let low := N.land f 15 in
      if flag =? 0 then Ok (false, unpack_nibbles r)
      else if flag =? 1 then Ok (false, low :: unpack_nibbles r)
      else if flag =? 2 then Ok (true, unpack_nibbles r ++ [16])
      else if flag =? 3 then Ok (true, (low :: unpack_nibbles r) ++ [16])
      else Panic
  end.
Fixpoint all_ok {A} (l : list (outcome A)) : outcome (list A) :=
  match l with
  | [] => Ok []
  | x :: r => obind x (fun a => obind (all_ok r) (fun b => Ok (a :: b)))
  end.
Fixpoint rlp_decode (fuel : nat) (data : bytes) : outcome node :=
  match fuel with
  | O => Err
  | S f =>
      match rlp_split data with
      | Some (false, payload, _) =>
          if is_nil payload then Ok NEmpty
          else if blen payload =? 32 then Ok (NHash payload) else Err
      | Some (true, payload, _) =>
          match rlp_items (length payload) payload with
          | Some [(false, c, _); (k, v, raw)] =>
              obind (from_compact c) (fun x =>
                if fst x then (if k then Err else Ok (NLeaf (snd x) v))
                else omap (NExt (snd x)) (rlp_decode f raw))
          | Some l =>
              if blen l =? 17 then
                obind (all_ok (map (fun it => rlp_decode f (snd it)) (firstn 16 l))) (fun cs =>
                  match nth_error l 16 with
                  | Some (false, v, _) => Ok (NBranch cs (if is_nil v then None else Some v))
                  | _ => Err
                  end)
              else Err
          | None => Err
          end
      | None => Err
      end
  end.
Definition rlp_decode_node (data : bytes) : outcome node := rlp_decode (S (length data)) data.
