(** What the iteration over tries returns, and which state a snapshot stands for. *)
From Verif Require Import Base Trie_Model StateContent_Model ExecDb_Model ExecDb_Spec EraFiles_Model ExecSnap_Model.

(** The entries of a trie, each once. *)
Definition lists (m : kv) (l : list (bytes * bytes)) : Prop :=
  NoDup (map fst l) /\ forall k v, In (k, v) l <-> m k = Some v.
(** The iteration is right for the state trie and for the storage tries of its accounts, which have
    fewer than 2^32 times ten million slots. *)
Definition iterates (keccak : bytes -> bytes) (iter : kv -> list (bytes * bytes)) (s : state) : Prop :=
  lists (trie s) (iter (trie s)) /\
  forall k v a m, trie s k = Some v -> decode_account v = Ok a -> storage_root a <> keccak [128] -> saved s k (storage_root a) = Some m ->
    lists m (iter m) /\ blen (iter m) < 10000000 * (2 ^ 32 - 1).
(** The root of a trie is determined by its entries; that of the empty one is [keccak [128]]. *)
Definition root_fun (keccak : bytes -> bytes) (root_of : kv -> bytes) : Prop :=
  (forall m m', (forall k, m k = m' k) -> root_of m = root_of m') /\ root_of no_kv = keccak [128].
(** The codes of all accounts are known. *)
Definition coded (keccak : bytes -> bytes) (is_address is_code : bytes -> Prop) (w : world) : Prop :=
  forall a i, is_address a -> w_account w a = Some i ->
    exists c, is_code c /\ i_code_hash i = keccak c /\ w_code w (keccak c) = Some c.
(** The file of block [n] can be had, and it reaches to block [n]. *)
Definition available {body} (files : N -> outcome (list (header * body))) (n : N) : Prop :=
  exists l, files (n / 8192) = Ok l /\ n mod 8192 < blen l.
(** A world with other block hashes: those of blocks [from..to] of a chain. *)
Definition recent {body} (chain : N -> header * body) (from to : N) (n : N) : option bytes :=
  if (from <=? n) && (n <=? to) then Some (h_hash (fst (chain n))) else None.

(** The items of a file. *)
(** The numbers and hashes of an account fit their types. *)
Definition entry_ok (e : account_entry) : Prop :=
  nonce (ae_state e) < 2 ^ 64 /\ balance (ae_state e) < 2 ^ 256 /\
  length (storage_root (ae_state e)) = 32%nat /\ length (code_hash (ae_state e)) = 32%nat.
(** No key of an account is the key of a code or of the hash of one of the blocks [from..to]. *)
Definition separate (keccak : bytes -> bytes) (l : list snap_item) (from to : N) : Prop :=
  forall e, In (Account e) l ->
    (forall e', In (Account e') l -> ae_hash e <> keccak (ae_code e')) /\ ae_hash e <> keccak [] /\ ae_hash e <> repeat 0 32 /\
    keccak (ae_code e) <> repeat 0 32 /\
    forall n, from <= n <= to -> ae_hash e <> keccak (be_bytes 32 n) /\ keccak (ae_code e) <> keccak (be_bytes 32 n).
