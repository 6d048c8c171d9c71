(** Which values the key types can hold: hashes are 32 bytes, numbers fit their width, a path
    has at most 64 nibbles. *)
From Verif Require Import Base Keys_Model.

Definition hash32 (h : bytes) : Prop := length h = 32%nat /\ bytes_ok h.
Definition path (l : bytes) : Prop := (length l <= 64)%nat /\ Forall (fun n => n < 16) l.

Definition legacy_valid (k : legacy_key) : Prop :=
  match k with
  | BlockHeaderByHash h | BlockBody h | BlockReceipts h | EphemeralHeaderOffer h => hash32 h
  | BlockHeaderByNumber n => n < 2 ^ 64
  | EphemeralHeadersFindContent h c => hash32 h /\ c < 256
  end.
Definition beacon_valid (k : beacon_key) : Prop :=
  match k with
  | LightClientBootstrap h => hash32 h
  | LightClientUpdatesByRange s c => s < 2 ^ 64 /\ c < 2 ^ 64
  | LightClientFinalityUpdate s | LightClientOptimisticUpdate s => s < 2 ^ 64
  | HistoricalSummariesWithProof e => e < 2 ^ 64
  end.
Definition state_valid (k : state_key) : Prop :=
  match k with
  | AccountTrieNode p h => path p /\ hash32 h
  | ContractStorageTrieNode a p h => hash32 a /\ path p /\ hash32 h
  | ContractBytecode a c => hash32 a /\ hash32 c
  end.
Definition history_valid (k : history_key) : Prop :=
  match k with HBlockBody n | HBlockReceipts n => n < 2 ^ 64 end.

(** What is wanted of the byte form of a kind of key. *)
Record unambiguous {key} (valid : key -> Prop) (to_bytes : key -> bytes) (from_bytes : bytes -> outcome key) : Prop := {
  (** a key is read back from its bytes, *)
  read_back : forall k, valid k -> bytes_ok (to_bytes k) /\ from_bytes (to_bytes k) = Ok k;
  (** whatever is read is a key whose bytes those are, *)
  only_own_bytes : forall b k, bytes_ok b -> from_bytes b = Ok k -> valid k /\ to_bytes k = b;
  (** different keys have different bytes, *)
  distinct_bytes : forall k1 k2, valid k1 -> valid k2 -> to_bytes k1 = to_bytes k2 -> k1 = k2;
  (** and reading any bytes gives a key or an error. *)
  no_panic : forall b, from_bytes b <> Panic
}.
