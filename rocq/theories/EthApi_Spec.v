(** Vocabulary for the eth_ methods. *)
From Verif Require Import Base Keys_Model Keys_Spec Merkle_Spec Header_Model Header_Spec Header_Props LegacyHistory_Model LegacyHistory_Spec LegacyHistory_Props EthApi_Model.

Section Spec.
Context {tx rct wdl : Type}.
Context (HC : codec full_header) (HL : codec (list full_header)) (TC : codec tx) (RC : codec rct) (WC : codec wdl).
Context (keccak : bytes -> bytes) (trie_root : list bytes -> bytes).
Context (sha : bytes -> bytes) (fk : forks).

(** A node that has taken content only from the network. *)
Definition reached (c : chain) (n : node) : Prop :=
  exists v (l : list (@op tx rct wdl)), reach sha fk c v /\ Forall (from_network sha c) l /\
    n = node_run HC HL TC RC WC keccak trie_root sha fk {| n_validator := v; n_store := [] |} l.
Definition some_bytes (x : option bytes) : Prop := forall b, x = Some b -> bytes_ok b.
(** Every answer is that of a node at some moment, with whatever peers send; it is shorter than 4 GiB. *)
Definition answered (c : chain) (lookup : N -> legacy_key -> outcome bytes) : Prop :=
  forall i k b, lookup i k = Ok b -> blen b < 2 ^ 32 /\
    exists n source net net_header, reached c n /\ honest sha c source /\ some_bytes net /\ some_bytes net_header /\
      answer HC HL TC RC WC keccak trie_root sha fk n source net net_header k = Ok b.

(** The block that was asked for. *)
Definition meant (id : block_id) (h : full_header) : Prop :=
  match id with
  | ByHash hash => keccak (enc HC h) = hash
  | ByNumber (Number n) => number h = n
  | _ => False
  end.
Definition id_ok (id : block_id) : Prop :=
  match id with ByHash hash => hash32 hash | ByNumber (Number n) => n < 2 ^ 64 | _ => True end.
(** A block is what the API shows of a header and a body. *)
Definition shows (block_length : full_header -> @block_body tx wdl -> N) (blk : rpc_block) (h : full_header) (body : @block_body tx wdl) : Prop :=
  b_header blk = h /\ b_hash blk = keccak (enc HC h) /\ b_size blk = block_length h body /\
  b_transactions blk = map (fun t => keccak (enc TC t)) (transactions body) /\
  b_uncles blk = map (fun u => keccak (enc HC u)) (ommers body) /\
  b_withdrawals blk = withdrawals body.
End Spec.
