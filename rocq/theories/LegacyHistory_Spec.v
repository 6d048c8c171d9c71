(** Vocabulary for the content of the legacy history network. *)
From Verif Require Import Base Ssz_Model Keys_Model Keys_Spec Merkle_Spec Header_Model Header_Spec LegacyHistory_Model.

(** Codecs: a value is read back from the front of a buffer, and only its own encoding is read. *)
Definition reads {A} (c : codec A) : Prop := forall x rest, dec c (enc c x ++ rest) = Some (x, rest).
Definition exact {A} (c : codec A) : Prop := forall b x rest, dec c b = Some (x, rest) -> b = enc c x ++ rest.
Definition proper {A} (c : codec A) : Prop := reads c /\ exact c /\ forall x, bytes_ok (enc c x).

(** The proofs that fit a header: by the eras its time and number belong to. *)
Definition era (fk : forks) (h : full_header) (p : header_proof) : Prop :=
  match p with
  | SummariesDeneb _ => cancun_time fk <= timestamp h
  | SummariesCapella _ => shanghai_time fk <= timestamp h < cancun_time fk
  | HistoricalRoots _ => paris_block fk <= number h /\ timestamp h < shanghai_time fk /\ timestamp h < cancun_time fk
  | HistoricalHashes _ => number h < paris_block fk /\ timestamp h < shanghai_time fk /\ timestamp h < cancun_time fk
  end.
Definition block_proof_ok (p : block_proof) : Prop :=
  Forall hash32 (beacon_block_proof p) /\ hash32 (beacon_block_root p) /\ Forall hash32 (execution_block_proof p) /\ slot p < 2 ^ 64.
Definition proof_ok (p : header_proof) : Prop :=
  typed p /\
  match p with
  | HistoricalHashes p => Forall hash32 p
  | HistoricalRoots p | SummariesCapella p | SummariesDeneb p => block_proof_ok p
  end.

(** A header is backed by the chain: see C22.  [ph] is the hash of the header. *)
Definition backed (sha : bytes -> bytes) (fk : forks) (c : chain) (num time : N) (ph : bytes) (p : header_proof) : Prop :=
  match p with
  | HistoricalHashes branch =>
      num < paris_block fk /\
      exists e, nth_error (epochs c) (N.to_nat (num / 8192)) = Some e /\
        ((exists r, nth_error e (N.to_nat (num mod 8192)) = Some r /\ block_hash r = ph) \/
         clash sha (hashed_by_proof sha ph branch (32768 + 2 * (num mod 8192))) (hashed_by_epoch sha e) \/
         exists x, In x (hashed_by_proof sha ph branch (32768 + 2 * (num mod 8192))) /\ sha x = repeat 0 32)
  | HistoricalRoots q =>
      paris_block fk <= num /\ time < shanghai_time fk /\
      (block_at (batches c) (slot q / 8192) (slot q) (beacon_block_root q) \/
       exists b, In b (batches c) /\ clash sha (hashed_by_proof sha (beacon_block_root q) (beacon_block_proof q) (16384 + slot q mod 8192)) (hashed_by_batch sha b)) /\
      contains sha 4 (beacon_block_root q) ph (execution_block_proof q) 3228
  | SummariesCapella q =>
      shanghai_time fk <= time < cancun_time fk /\ 194048 * 32 <= slot q /\
      (block_at (later_batches c) ((slot q - 194048 * 32) / 8192) (slot q) (beacon_block_root q) \/
       exists b, In b (later_batches c) /\ clash sha (hashed_by_proof sha (beacon_block_root q) (beacon_block_proof q) (8192 + slot q mod 8192)) (hashed_by_batch sha b)) /\
      contains sha 4 (beacon_block_root q) ph (execution_block_proof q) 3228
  | SummariesDeneb q =>
      cancun_time fk <= time /\ 194048 * 32 <= slot q /\
      (block_at (later_batches c) ((slot q - 194048 * 32) / 8192) (slot q) (beacon_block_root q) \/
       exists b, In b (later_batches c) /\ clash sha (hashed_by_proof sha (beacon_block_root q) (beacon_block_proof q) (8192 + slot q mod 8192)) (hashed_by_batch sha b)) /\
      contains sha 5 (beacon_block_root q) ph (execution_block_proof q) 6444
  end.

Section Spec.
Context {tx rct wdl : Type}.
Context (HC : codec full_header) (HL : codec (list full_header)) (TC : codec tx) (RC : codec rct) (WC : codec wdl).
Context (keccak : bytes -> bytes) (trie_root : list bytes -> bytes).

(** The bytes of a header with its proof, when [junk] follows the header: without junk, the SSZ
    container of the RLP of the header and of the SSZ of the proof. *)
Definition header_value (h : full_header) (junk : bytes) (p : header_proof) : bytes :=
  encode_container [PVar (enc HC h ++ junk); PVar (match p with
    | HistoricalHashes p => concat p
    | HistoricalRoots q | SummariesCapella q | SummariesDeneb q =>
        concat (beacon_block_proof q) ++ beacon_block_root q ++ concat (execution_block_proof q) ++ le_bytes 8 (slot q)
    end)].
(** The lists that [items] encode, when each item may be followed by junk. *)
Definition item_of {A} (c : codec A) (x : A) (b : bytes) : Prop := exists junk, b = enc c x ++ junk.
Definition items_of {A} (c : codec A) (l : list A) (items : list bytes) : Prop := Forall2 (item_of c) l items.

(** The bytes of a block body, and of a list of receipts, when every item may be followed by junk. *)
Definition body_value (b : @block_body tx wdl) (v : bytes) : Prop :=
  exists txs uncles, items_of TC (transactions b) txs /\ item_of HL (ommers b) uncles /\
    match withdrawals b with
    | None => v = encode_container [PVar (encode_var_list txs); PVar uncles]
    | Some ws => ommers b = [] /\ exists wds, items_of WC ws wds /\
        v = encode_container [PVar (encode_var_list txs); PVar uncles; PVar (encode_var_list wds)]
    end.
Definition receipts_value (l : list rct) (v : bytes) : Prop :=
  blen l <= 16384 /\ exists items, items_of RC l items /\ v = encode_var_list items.

(** A block body and its header: what the header of a block commits to. *)
Definition same_uncles (b : @block_body tx wdl) (h : full_header) : Prop := ommers_hash h = keccak (enc HL (ommers b)).
Definition same_transactions (b : @block_body tx wdl) (h : full_header) : Prop := transactions_root h = trie_root (map (enc TC) (transactions b)).
Definition same_withdrawals (b : @block_body tx wdl) (h : full_header) : Prop :=
  withdrawals_root h = option_map (fun ws => trie_root (map (enc WC) ws)) (withdrawals b).
Definition body_of (b : @block_body tx wdl) (h : full_header) : Prop := same_uncles b h /\ same_transactions b h /\ same_withdrawals b h.
(** Two lists with one root. *)
Definition root_clash (xs ys : list bytes) : Prop := xs <> ys /\ trie_root xs = trie_root ys.
Definition hash_clash (x y : bytes) : Prop := x <> y /\ keccak x = keccak y.

(** Values that can be written: sizes fit, a proof is of the kind its header needs, and a body
    with withdrawals has no uncles. *)
Definition small (l : list bytes) : Prop := 4 * blen l + blen (concat l) < 2 ^ 30.
Definition legacy_value_ok (fk : forks) (k : legacy_key) (v : @legacy_value tx rct wdl) : Prop :=
  match k, v with
  | BlockHeaderByHash _, VHeader (h, p) | BlockHeaderByNumber _, VHeader (h, p) =>
      blen (enc HC h) <= 2048 /\ era fk h p /\ proof_ok p
  | BlockBody _, VBody b =>
      small (map (enc TC) (transactions b)) /\ blen (enc HL (ommers b)) < 2 ^ 30 /\
      match withdrawals b with Some ws => ommers b = [] /\ small (map (enc WC) ws) | None => True end
  | BlockReceipts _, VReceipts l => small (map (enc RC) l) /\ blen l <= 16384
  | EphemeralHeadersFindContent _ _, VEphemeral l => Forall (fun h => blen (enc HC h) <= 2048) l /\ blen l <= 256
  | EphemeralHeaderOffer _, VOffer h => blen (enc HC h) <= 2048
  | _, _ => False
  end.
End Spec.
