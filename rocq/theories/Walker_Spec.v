(** Vocabulary for slices of the key space and for walks over a trie. *)
From Verif Require Import Base Keys_Model Keys_Spec Trie_Model Trie_Spec StateContent_Model StateContent_Spec Walker_Model.

(** ** Slices *)

(** A path as a number, and a key (64 nibbles). *)
Definition path_num (p : bytes) : N := fold_left (fun acc n => acc * 16 + n) p 0.
Definition is_key (k : bytes) : Prop := length k = 64%nat /\ Forall nibble k.
(** [k] goes on from [p]. *)
Definition extends (k p : bytes) : Prop := exists r, k = p ++ r.

(** ** Walks *)

(** A walk with a slice wants only what is inside. *)
Definition takes_in (f : option filter) (p : bytes) : Prop :=
  match f with None => True | Some g => filter_contains g p = Ok true end.
Section Hashes.
Context (keccak : bytes -> bytes).
Notation enc := (encode_raw keccak).

(** A node that has its own entry in a database: the root, and any node of 32 bytes or more
    (smaller ones are written inside their parents). *)
Definition own_entry (t : node) (p : bytes) (s : node) : Prop :=
  at_path t p s /\ (p = [] \/ 32 <= blen (enc s)).
(** The database has every node of the trie. *)
Definition has_trie (db : bytes -> option bytes) (t : node) : Prop :=
  forall p s, own_entry t p s -> db (keccak (enc s)) = Some (enc s).
(** The database has some nodes of the trie, for instance those that a block changed. *)
Definition has_some (db : bytes -> option bytes) (t : node) : Prop :=
  forall p s, own_entry t p s -> db (keccak (enc s)) = Some (enc s) \/ db (keccak (enc s)) = None.
(** An item of a walk: the path and the proof of a node of the trie, ending with the node. *)
Definition proves (decode_node : bytes -> outcome node) (t : node) (i : trie_proof) : Prop :=
  exists s, own_entry t (tp_path i) s /\ last (tp_proof i) [] = enc s /\
    validate_node_trie_proof keccak decode_node (Some (root_hash keccak t)) (keccak (enc s)) (tp_path i) (tp_proof i) = Ok tt.
(** Nothing is missing on the way to [p]. *)
Definition way_there (db : bytes -> option bytes) (t : node) (p : bytes) : Prop :=
  forall q s, extends p q -> own_entry t q s -> db (keccak (enc s)) <> None.

(** ** State *)

(** A trie whose nodes fit in proofs and whose paths fit in keys. *)
Definition good_trie (t : node) : Prop :=
  trie t /\ fits keccak t /\ forall p s, at_path t p s -> (length p <= 64)%nat /\ bytes_ok (enc s).
Context (decode_account : bytes -> outcome account).
(** The state has the account [a] under the hash [address], in a leaf at the path [q]. *)
Definition account_on (t : node) (q address : bytes) (a : account) : Prop :=
  exists k v, at_path t q (NLeaf (k ++ [16]) v) /\ unpack_nibbles address = q ++ k /\ decode_account v = Ok a.
Definition account_at (t : node) (address : bytes) (a : account) : Prop := exists q, account_on t q address a.
(** Every leaf is an account: something of its path is left for the leaf, and its value has two
    hashes, so that it is more than 32 bytes long. *)
Definition accounts (t : node) : Prop :=
  forall q k v, at_path t q (NLeaf (k ++ [16]) v) ->
    k <> [] /\ length (q ++ k) = 64%nat /\ 32 <= blen v /\ exists a, decode_account v = Ok a.
(** A code that can be sent. *)
Definition code_for (code h : bytes) : Prop := keccak code = h /\ code_ok code.

(** A database with the whole of a state, *)
Record whole_state (db : bytes -> option bytes) (account_db : bytes -> bytes -> option bytes) (empty_root : bytes) (t : node) : Prop := {
  ws_trie : good_trie t;
  ws_nodes : has_trie db t;
  ws_accounts : accounts t;
  ws_code : forall address a, hash32 address -> account_at t address a -> code_hash a <> keccak [] ->
    exists code, db (code_hash a) = Some code /\ code_for code (code_hash a);
  ws_storage : forall address a, hash32 address -> account_at t address a -> storage_root a <> empty_root ->
    exists st, storage_root a = root_hash keccak st /\ good_trie st /\ has_trie (account_db address) st
}.
(** and what a block created: some nodes of the new state, some codes, some nodes of storage. *)
Record changed_state (diff newly : bytes -> option bytes) (storage_diff : bytes -> bytes -> option bytes) (t : node) : Prop := {
  cs_trie : good_trie t;
  cs_nodes : has_some diff t;
  cs_accounts : accounts t;
  cs_code : forall h code, newly h = Some code -> code_for code h;
  cs_storage : forall address a, hash32 address -> account_at t address a ->
    exists st, storage_root a = root_hash keccak st /\ good_trie st /\ has_some (storage_diff address) st
}.
End Hashes.

(** A content that any node accepts, given the state root of the block. *)
Definition accepted keccak decode_node decode_account get_state_root (c : state_key * state_value) : Prop :=
  state_valid (fst c) /\
  validate_with keccak decode_node decode_account get_state_root false (fst c) (state_encode (snd c)) = Ok CanonicallyValid.


(** The order of paths: a node before what is below it, otherwise by the first nibble that differs. *)
Inductive before : bytes -> bytes -> Prop :=
| before_below x r : before [] (x :: r)
| before_less x y p q : x < y -> before (x :: p) (y :: q)
| before_same x p q : before p q -> before (x :: p) (x :: q).
