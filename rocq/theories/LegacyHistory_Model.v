(** Content of the legacy history network:
    /repo/crates/ethportal-api/src/types/content_value/legacy_history.rs,
    types/execution/{header_with_proof,ssz_header,block_body,receipts,ephermeral_header}.rs,
    /repo/crates/subnetworks/legacy-history/src/validation.rs and jsonrpc.rs, and
    /repo/crates/validation/src/oracle.rs.

    The types of transactions, receipts and withdrawals with their RLP codecs, the RLP codec of
    headers, Keccak and the root of an ordered trie are outside /repo (alloy) and are arguments. *)
From Verif Require Import Base Ssz_Model Keys_Model Trie_Model StateContent_Model Header_Model.

(** A codec of alloy: [decode(&mut buf)] and [decode_2718(&mut buf)] read a value from the
    start of the buffer and leave the rest in it. *)
Record codec (A : Type) := { enc : A -> bytes; dec : bytes -> option (A * bytes) }.
Arguments enc {A}. Arguments dec {A}.
(** [Decodable::decode(&mut bytes.as_slice())], as every caller here writes it: what is left in the
    temporary slice is dropped. *)
Definition take {A} (c : codec A) (b : bytes) : outcome A :=
  match dec c b with Some (x, _) => Ok x | None => Err end.
(** [.iter().map(..).collect::<Result<Vec<_>, _>>()] *)
Definition take_all {A} (c : codec A) (l : list bytes) : outcome (list A) := all_ok (map (take c) l).

(** alloy's [Header]: the fields that are looked at, and the others. *)
Record full_header := {
  number : N; timestamp : N; ommers_hash : bytes; transactions_root : bytes; receipts_root : bytes;
  withdrawals_root : option bytes; other_fields : bytes }.

Section Legacy.
Context {tx rct wdl : Type}.
Context (HC : codec full_header) (HL : codec (list full_header)) (TC : codec tx) (RC : codec rct) (WC : codec wdl).
Context (keccak : bytes -> bytes) (trie_root : list bytes -> bytes).
Context (sha : bytes -> bytes) (fk : forks).

(** alloy: [hash_slow] *)
Definition hash_slow (h : full_header) : bytes := keccak (enc HC h).
(** What Header_Model looks at. *)
Definition view (h : full_header) : header := {| h_number := number h; h_timestamp := timestamp h; h_hash := hash_slow h |}.

(** ssz_header.rs:14-17 [ssz_append]: [ByteList2048::from] cuts off what is too long. *)
Definition encode_header (h : full_header) : bytes := firstn 2048 (enc HC h).
(** ssz_header.rs:44-49 [from_ssz_bytes] *)
Definition decode_header (b : bytes) : outcome full_header := obind (decode_bytelist 2048 b) (take HC).

(** A vector of [n] hashes. *)
Definition decode_hashes (n : nat) (b : bytes) : outcome (list bytes) :=
  obind (decode_fixed_list 32 None b) (fun l => if Nat.eqb (length l) n then Ok l else Err).
(** header_with_proof.rs:130-178, derived codecs: a vector of [n] hashes, a hash, a vector of [m]
    hashes and a slot. *)
Definition encode_block_proof (p : block_proof) : bytes :=
  encode_container [PFix (concat (beacon_block_proof p)); PFix (beacon_block_root p); PFix (concat (execution_block_proof p)); PFix (u64 (slot p))].
Definition decode_block_proof (n m : nat) (b : bytes) : outcome block_proof :=
  obind (decode_container [Some (32 * N.of_nat n); Some 32; Some (32 * N.of_nat m); Some 8] b) (fun l =>
    match l with
    | [x; r; y; s] =>
        obind (decode_hashes n x) (fun x =>
        obind (decode_hashes m y) (fun y =>
        obind (decode_uint 8 s) (fun s =>
          Ok {| beacon_block_proof := x; beacon_block_root := r; execution_block_proof := y; slot := s |})))
    | _ => Err
    end).
(** header_with_proof.rs:102-123 *)
Definition encode_proof (p : header_proof) : bytes :=
  match p with
  | HistoricalHashes p => concat p
  | HistoricalRoots p => encode_block_proof p
  | SummariesCapella p => encode_block_proof p
  | SummariesDeneb p => encode_block_proof p
  end.
(** header_with_proof.rs:45-53, derived [Encode] *)
Definition encode_hwp (x : full_header * header_proof) : bytes :=
  encode_container [PVar (encode_header (fst x)); PVar (encode_proof (snd x))].
(** header_with_proof.rs:67-100 [from_ssz_bytes] *)
Definition decode_proof_for (h : full_header) (b : bytes) : outcome header_proof :=
  if cancun_active fk (timestamp h) then omap SummariesDeneb (decode_block_proof 13 12 b)
  else if shanghai_active fk (timestamp h) then omap SummariesCapella (decode_block_proof 13 11 b)
  else if paris_active fk (number h) then omap HistoricalRoots (decode_block_proof 14 11 b)
  else omap HistoricalHashes (decode_hashes 15 b).
Definition decode_hwp (b : bytes) : outcome (full_header * header_proof) :=
  obind (container2 None None b) (fun x =>
  obind (decode_header (fst x)) (fun h =>
  obind (decode_bytelist 1024 (snd x)) (fun p =>
  obind (decode_proof_for h p) (fun p => Ok (h, p))))).

(** block_body.rs:20-21 and alloy's [BlockBody] *)
Record block_body := { transactions : list tx; ommers : list full_header; withdrawals : option (list wdl) }.
(** block_body.rs:35-43, 104-117, 145-165 *)
Definition encode_body (b : block_body) : bytes :=
  match withdrawals b with
  | Some ws =>
      encode_container [PVar (encode_var_list (map (enc TC) (transactions b))); PVar (enc HL []);
        PVar (encode_var_list (map (enc WC) ws))]
  | None =>
      encode_container [PVar (encode_var_list (map (enc TC) (transactions b))); PVar (enc HL (ommers b))]
  end.
(** block_body.rs:119-143 *)
Definition decode_pre_shanghai (b : bytes) : outcome block_body :=
  obind (container2 None None b) (fun x =>
  obind (decode_var_list None (fst x)) (fun txs =>
  obind (take_all TC txs) (fun txs =>
  obind (take HL (snd x)) (fun oms =>
    Ok {| transactions := txs; ommers := oms; withdrawals := None |})))).
(** block_body.rs:167-210 *)
Definition decode_post_shanghai (b : bytes) : outcome block_body :=
  obind (container3 None None None b) (fun x =>
  obind (decode_var_list None (fst (fst x))) (fun txs =>
  obind (decode_var_list None (snd x)) (fun ws =>
  obind (take_all TC txs) (fun txs =>
  obind (take HL (snd (fst x))) (fun oms =>
    match oms with
    | [] => obind (take_all WC ws) (fun ws => Ok {| transactions := txs; ommers := []; withdrawals := Some ws |})
    | _ => Err
    end))))).
(** block_body.rs:55-66 [from_ssz_bytes] *)
Definition decode_body (b : bytes) : outcome block_body :=
  match decode_pre_shanghai b with Ok v => Ok v | Err => decode_post_shanghai b | Panic => Panic end.

(** block_body.rs:70-98 [validate_against_header]; the roots are alloy's. *)
Definition validate_against_header (b : block_body) (h : full_header) : bool :=
  if negb (beqb (keccak (enc HL (ommers b))) (ommers_hash h)) then false
  else if negb (beqb (trie_root (map (enc TC) (transactions b))) (transactions_root h)) then false
  else match withdrawals b with
       | Some ws =>
           match withdrawals_root h with
           | Some expected => beqb (trie_root (map (enc WC) ws)) expected
           | None => false
           end
       | None => true
       end.

(** receipts.rs:21-36 *)
Definition encode_receipts (l : list rct) : bytes := encode_var_list (map (enc RC) l).
(** receipts.rs:43-59 *)
Definition decode_receipts (b : bytes) : outcome (list rct) :=
  obind (decode_var_list (Some 16384) b) (take_all RC).
(** receipts.rs:16-20 [root] *)
Definition receipts_trie_root (l : list rct) : bytes := trie_root (map (enc RC) l).

(** ephermeral_header.rs:8-53; a header of more than 2048 bytes makes the encoder panic. *)
Definition encode_ephemeral (l : list full_header) : outcome bytes :=
  if forallb (fun h => blen (enc HC h) <=? 2048) l then Ok (encode_var_list (map (enc HC) l)) else Panic.
Definition decode_ephemeral (b : bytes) : outcome (list full_header) :=
  obind (decode_var_list (Some 256) b) (fun l => all_ok (map decode_header l)).
(** ephermeral_header.rs:55-59, derived codecs *)
Definition encode_offer_header (h : full_header) : bytes := encode_container [PVar (encode_header h)].
Definition decode_offer_header (b : bytes) : outcome full_header := obind (container1 None b) decode_header.

(** legacy_history.rs (content_value):19-25 *)
Inductive legacy_value :=
| VHeader (x : full_header * header_proof)
| VBody (b : block_body)
| VReceipts (l : list rct)
| VEphemeral (l : list full_header)
| VOffer (h : full_header).
(** legacy_history.rs:30-38 [encode] *)
Definition legacy_encode (v : legacy_value) : outcome bytes :=
  match v with
  | VHeader x => Ok (encode_hwp x)
  | VBody b => Ok (encode_body b)
  | VReceipts l => Ok (encode_receipts l)
  | VEphemeral l => encode_ephemeral l
  | VOffer h => Ok (encode_offer_header h)
  end.
(** legacy_history.rs:40-73 [decode] *)
Definition legacy_decode (k : legacy_key) (b : bytes) : outcome legacy_value :=
  match k with
  | BlockHeaderByHash _ | BlockHeaderByNumber _ => omap VHeader (decode_hwp b)
  | BlockBody _ => omap VBody (decode_body b)
  | BlockReceipts _ => omap VReceipts (decode_receipts b)
  | EphemeralHeadersFindContent _ _ => omap VEphemeral (decode_ephemeral b)
  | EphemeralHeaderOffer _ => omap VOffer (decode_offer_header b)
  end.

(** The answer of the header oracle to a block hash: oracle.rs:66-85
    [recursive_find_header_by_hash_with_proof], where [get_content] is what the [GetContent]
    endpoint returns ([None]: an error). *)
Definition find_header (get_content : legacy_key -> option bytes) (hash : bytes) : outcome full_header :=
  match get_content (BlockHeaderByHash hash) with
  | None => Err
  | Some content =>
      obind (legacy_decode (BlockHeaderByHash hash) content) (fun v =>
        match v with VHeader x => Ok (fst x) | _ => Err end)
  end.

(** validation.rs:53-63, 89-98: the end of both header cases. *)
Definition check_proof (v : validator) (source : option (list summary)) (x : full_header * header_proof) : validator * outcome verdict :=
  let (v, r) := validate_header_with_proof sha fk v source (view (fst x)) (snd x) in
  (v, match r with Ok _ => Ok CanonicallyValid | Err => Ok Invalid | Panic => Panic end).
(** validation.rs:34-180 [validate_content]; [source] is where the header validator gets missing
    summaries from. *)
Definition validate_legacy (v : validator) (source : option (list summary)) (get_content : legacy_key -> option bytes)
  (k : legacy_key) (b : bytes) : validator * outcome verdict :=
  match k with
  | BlockHeaderByHash hash =>
      match decode_hwp b with
      | Err => (v, Ok Invalid)
      | Panic => (v, Panic)
      | Ok x => if negb (beqb (hash_slow (fst x)) hash) then (v, Ok Invalid) else check_proof v source x
      end
  | BlockHeaderByNumber n =>
      match decode_hwp b with
      | Err => (v, Ok Invalid)
      | Panic => (v, Panic)
      | Ok x => if negb (number (fst x) =? n) then (v, Ok Invalid) else check_proof v source x
      end
  | BlockBody hash =>
      (v, match decode_body b with
          | Err => Ok Invalid
          | Panic => Panic
          | Ok body =>
              match find_header get_content hash with
              | Err => Ok Invalid
              | Panic => Panic
              | Ok h => Ok (if validate_against_header body h then CanonicallyValid else Invalid)
              end
          end)
  | BlockReceipts hash =>
      (v, match decode_receipts b with
          | Err => Ok Invalid
          | Panic => Panic
          | Ok l =>
              match find_header get_content hash with
              | Err => Ok Invalid
              | Panic => Panic
              | Ok h => Ok (if beqb (receipts_trie_root l) (receipts_root h) then CanonicallyValid else Invalid)
              end
          end)
  | EphemeralHeadersFindContent _ _ | EphemeralHeaderOffer _ => (v, Ok Invalid)
  end.

(** ** A node: what is validated against what is stored.

    The store is a list of pairs, the newest first; which content is within the radius and what is
    pruned is the subject of Store_Model. *)
Record node := { n_validator : validator; n_store : list (bytes * bytes) }.
Definition stored (s : list (bytes * bytes)) (k : legacy_key) : option bytes :=
  option_map snd (find (fun x => beqb (fst x) (legacy_to_bytes k)) s).
(** portalnet overlay/service/find_content.rs:697-717 and 505-560: a lookup answers with the stored value, or else with a
    value from the network ([net], if there is any) that passes validation.  The lookup made in the course
    of a validation is for a header, whose validation makes no further lookup.  (The summaries it may add to the
    cache are not kept here.) *)
Definition get_content (n : node) (source : option (list summary)) (net : option bytes) (k : legacy_key) : option bytes :=
  match stored (n_store n) k with
  | Some b => Some b
  | None =>
      match net with
      | None => None
      | Some b =>
          match snd (validate_legacy (n_validator n) source (fun _ => None) k b) with
          | Ok CanonicallyValid | Ok Valid => Some b
          | _ => None
          end
      end
  end.
Inductive op :=
(** overlay/service/offer.rs:537-570 and find_content.rs:518-590: content from the network, offered or found. *)
| Received (k : legacy_key) (b : bytes) (source : option (list summary)) (net : option bytes)
(** legacy-history jsonrpc.rs:199-216 [store] *)
| RpcStore (k : legacy_key) (v : legacy_value)
(** Pruning, or anything else that removes content. *)
| Dropped (k : legacy_key).
Definition put (s : list (bytes * bytes)) (k : legacy_key) (b : bytes) : list (bytes * bytes) := (legacy_to_bytes k, b) :: s.
Definition node_step (n : node) (o : op) : node :=
  match o with
  | Received k b source net =>
      let (v, r) := validate_legacy (n_validator n) source (get_content n source net) k b in
      match r with
      | Ok CanonicallyValid => {| n_validator := v; n_store := put (n_store n) k b |}
      | _ => {| n_validator := v; n_store := n_store n |}
      end
  | RpcStore k v =>
      match legacy_encode v with
      | Ok b => {| n_validator := n_validator n; n_store := put (n_store n) k b |}
      | _ => n
      end
  | Dropped k => {| n_validator := n_validator n; n_store := filter (fun x => negb (beqb (fst x) (legacy_to_bytes k))) (n_store n) |}
  end.
Definition node_run (n : node) (l : list op) : node := fold_left node_step l n.
End Legacy.
Arguments VHeader {tx rct wdl}. Arguments VBody {tx rct wdl}. Arguments VReceipts {tx rct wdl}. Arguments VEphemeral {tx rct wdl}. Arguments VOffer {tx rct wdl}.
Arguments Received {tx rct wdl}. Arguments RpcStore {tx rct wdl}. Arguments Dropped {tx rct wdl}.
