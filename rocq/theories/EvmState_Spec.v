(** Vocabulary for reading a state over the network. *)
From Verif Require Import Base Keys_Model Trie_Model Trie_Spec StateContent_Model StateContent_Spec ExecDb_Model Walker_Spec EvmState_Model.

Section Spec.
Context (keccak : bytes -> bytes) (decode_node : bytes -> outcome Trie_Model.node)
        (decode_account : bytes -> outcome account).
Notation enc := (encode_raw keccak).

(** ** What a state says *)

(** Under the hash of an address: an account, or nothing. *)
Definition account_is (t : Trie_Model.node) (h : bytes) (r : option account) : Prop :=
  match r with
  | Some a => exists v, holds t (unpack_nibbles h) v /\ decode_account v = Ok a
  | None => forall v, ~ holds t (unpack_nibbles h) v
  end.
(** In a slot of a storage trie: a number, which is 0 if nothing is there. *)
Definition slot_is (st : Trie_Model.node) (index x : N) : Prop :=
  match x with
  | 0 => forall v, ~ holds st (unpack_nibbles (keccak (b256 index))) v
  | _ => holds st (unpack_nibbles (keccak (b256 index))) (rlp_uint x)
  end.
(** A state: the trie of the accounts, the storage tries of the accounts, with numbers in them. *)
Record world (t : Trie_Model.node) (storage_of : bytes -> Trie_Model.node) : Prop := {
  w_trie : good_trie keccak t;
  w_storage : forall h a, account_is t h (Some a) ->
    storage_root a = root_hash keccak (storage_of h) /\ good_trie keccak (storage_of h) /\
    forall p v, holds (storage_of h) p v -> exists x, 0 < x < 2 ^ 256 /\ v = rlp_uint x }.
(** Every value of the trie is an account, and no leaf is left without a nibble (C28). *)
Definition no_empty_leaf (t : Trie_Model.node) : Prop := forall q v, ~ at_path t q (NLeaf [16] v).
Definition all_accounts (t : Trie_Model.node) : Prop := forall p v, holds t p v -> exists a, decode_account v = Ok a.

(** The right reply to a query. *)
Definition right (t : Trie_Model.node) (storage_of : bytes -> Trie_Model.node) (q : query) (r : reply) : Prop :=
  match q, r with
  | QBasic address, ABasic None => account_is t (keccak address) None
  | QBasic address, ABasic (Some i) =>
      exists a, account_is t (keccak address) (Some a) /\ i_balance i = balance a /\ i_nonce i = nonce a /\ i_code_hash i = code_hash a
  | QCode h, ACode c => keccak c = h
  | QStorage address index, AStorage x =>
      (account_is t (keccak address) None /\ x = 0) \/
      exists a, account_is t (keccak address) (Some a) /\ slot_is (storage_of (keccak address)) index x
  | _, _ => False
  end.

(** ** What the network answers *)

(** A content that a node gives out: from its store, or from a peer after validation. *)
Definition served (k : state_key) (b : bytes) : Prop :=
  (exists b', bytes_ok b' /\ stored_form keccak k b' = Ok b) \/
  exists get_state_root verdict, validate keccak decode_node decode_account get_state_root k b = Ok verdict /\ verdict <> Invalid.
(** No answer holds a node that differs from a node of the trie and has the same hash. *)
Definition no_forgery (net : N -> state_key -> outcome bytes) (t : Trie_Model.node) : Prop :=
  forall i k b x p s, net i k = Ok b -> state_decode k b = Ok (TrieNode x) -> at_path t p s ->
    keccak x = keccak (enc s) -> x = enc s.
(** The network has every node of the state, every code, and every node of the storage of accounts
    that have any. *)
Record has_state (net : N -> state_key -> outcome bytes) (t : Trie_Model.node) (storage_of : bytes -> Trie_Model.node) : Prop := {
  hs_nodes : forall i p s, own_entry keccak t p s ->
    net i (AccountTrieNode p (keccak (enc s))) = Ok (state_encode (TrieNode (enc s)));
  hs_codes : forall h a, account_is t h (Some a) -> code_hash a <> keccak [] ->
    exists c, code_for keccak c (code_hash a) /\ forall i, net i (ContractBytecode h (code_hash a)) = Ok (state_encode (Bytecode c));
  hs_storage : forall i h a p s, account_is t h (Some a) -> storage_root a <> keccak [128] -> own_entry keccak (storage_of h) p s ->
    net i (ContractStorageTrieNode h p (keccak (enc s))) = Ok (state_encode (TrieNode (enc s))) }.

(** A session after some queries. *)
Definition after (raw_ok : bytes -> bool) (net : N -> state_key -> outcome bytes) (fuel : nat) (root : bytes) (qs : list query) (s : session) : Prop :=
  exists rs, ask_all keccak decode_node decode_account raw_ok net fuel qs (open_session root) = Some (s, rs).
End Spec.
