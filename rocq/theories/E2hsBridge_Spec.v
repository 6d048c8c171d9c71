(** Vocabulary for the bridge from history files: what can be seen of a run, and the blocks it is about. *)
From Verif Require Import Base AcceptCodes_Model Keys_Model Header_Model LegacyHistory_Model LegacyHistory_Spec E2Store_Model EraFiles_Model E2hsBridge_Model.

Section Trace.
Context {P : Type}.
(** The peers selected for the content [w] of the [i]-th block; the offers of it, in order; the peers that have answered them. *)
Definition chosen (i w : nat) (tr : list (event P)) : list (list P) :=
  flat_map (fun e => match e with Began i' w' ps => if (i' =? i)%nat && (w' =? w)%nat then [ps] else [] | _ => [] end) tr.
Definition offered (i w : nat) (tr : list (event P)) : list P :=
  flat_map (fun e => match e with Offered i' w' p _ _ => if (i' =? i)%nat && (w' =? w)%nat then [p] else [] | _ => [] end) tr.
Definition answered (i w : nat) (tr : list (event P)) : list P :=
  flat_map (fun e => match e with Answered i' w' p _ => if (i' =? i)%nat && (w' =? w)%nat then [p] else [] | _ => [] end) tr.
(** All offers, all answers, all selected peers *)
Definition offers (tr : list (event P)) : nat := list_sum (map (fun e => match e with Offered _ _ _ _ _ => 1%nat | _ => 0%nat end) tr).
Definition answers (tr : list (event P)) : list (option accept_code) := flat_map (fun e => match e with Answered _ _ _ a => [a] | _ => [] end) tr.
Definition selections (tr : list (event P)) : nat := list_sum (map (fun e => match e with Began _ _ ps => length ps | _ => 0%nat end) tr).
(** The content was offered to every selected peer, once, and every offer has its answer. *)
Definition completed (i w : nat) (tr : list (event P)) : Prop :=
  exists ps, chosen i w tr = [ps] /\ offered i w tr = ps /\ Permutation ps (answered i w tr).
(** The answers of each kind *)
Definition counts (tr : list (event P)) : counters := {|
  accepted := N.of_nat (length (filter (fun a => match a with Some Accepted => true | _ => false end) (answers tr)));
  declined := N.of_nat (length (filter (fun a => match a with Some Accepted => false | Some _ => true | None => false end) (answers tr)));
  failed := N.of_nat (length (filter (fun a => match a with None => true | _ => false end) (answers tr))) |}.
End Trace.

(** The blocks that a script spawns *)
Definition spawned {T} (todo : list (action T)) : list T := flat_map (fun a => match a with Spawn _ b => [b] | _ => [] end) todo.

Section Blocks.
Context {tx rct wdl : Type}.
Context (HC : codec full_header) (HL : codec (list full_header)) (TC : codec tx) (RC : codec rct) (WC : codec wdl).
Context (keccak : bytes -> bytes) (trie_root : list bytes -> bytes) (sha : bytes -> bytes) (fk : forks).
Context (pre_merge_roots roots_acc : list bytes).
Notation block := (@tuple3 (full_header * header_proof) (@block_body tx wdl) (list rct)).
(** The body and the receipts are those that the header commits to; withdrawals may be missing. *)
Definition matching (t : block) : Prop :=
  same_uncles HL keccak (u_body t) (fst (u_header t)) /\ same_transactions TC trie_root (u_body t) (fst (u_header t)) /\
  (withdrawals (u_body t) = None \/ same_withdrawals WC trie_root (u_body t) (fst (u_header t))) /\
  trie_root (map (enc RC) (u_receipts t)) = receipts_root (fst (u_header t)).
(** The proof of a header: whether it is checked against what the bridge has, and whether the header validator accepts it *)
Definition from_summaries (t : block) : Prop := match snd (u_header t) with SummariesCapella _ | SummariesDeneb _ => True | _ => False end.
Definition accepted_header (t : block) : Prop :=
  snd (validate_header_with_proof sha fk {| pre_merge_acc := pre_merge_roots; historical_roots := roots_acc; cache := [] |} (Some [])
    {| h_number := number (fst (u_header t)); h_timestamp := timestamp (fst (u_header t)); h_hash := keccak (enc HC (fst (u_header t))) |} (snd (u_header t))) = Ok tt.
(** The four contents of a block: the header by hash, the header by number, the body, the receipts *)
Definition content_of (t : block) (w : nat) (k : legacy_key) (v : bytes) : Prop :=
  let h := fst (u_header t) in
  match w with
  | 0%nat => k = BlockHeaderByHash (keccak (enc HC h)) /\ legacy_encode HC HL TC RC WC (VHeader (u_header t)) = Ok v
  | 1%nat => k = BlockHeaderByNumber (number h) /\ legacy_encode HC HL TC RC WC (VHeader (u_header t)) = Ok v
  | 2%nat => k = BlockBody (keccak (enc HC h)) /\ legacy_encode HC HL TC RC WC (VBody (u_body t)) = Ok v
  | 3%nat => k = BlockReceipts (keccak (enc HC h)) /\ legacy_encode HC HL TC RC WC (VReceipts (u_receipts t)) = Ok v
  | _ => False
  end.
(** The history file of an epoch *)
Context (hp_unpack : bytes -> option (full_header * header_proof)) (b_unpack : bytes -> option (@block_body tx wdl)) (r_unpack : bytes -> option (list rct)).
Definition file_has (get : N -> outcome bytes) (e : N) (ts : list block) : Prop :=
  exists buf x, get e = Ok buf /\ e2hs_read hp_unpack b_unpack r_unpack buf = Ok x /\ hs_tuples x = ts.
(** Three records of what is served for an epoch, one after the other, are the block. *)
Definition served (get : N -> outcome bytes) (e : N) (t : block) : Prop :=
  exists buf es pre a b c post, get e = Ok buf /\ mem_deserialize buf = Ok es /\ es = pre ++ a :: b :: c :: post /\ tuple3_from hp_unpack b_unpack r_unpack a b c = Ok t.
End Blocks.
