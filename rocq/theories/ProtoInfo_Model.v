(** What a node says about its protocol: /repo/crates/ethportal-api/src/types/protocol_info.rs (the value of the key "p" of a record) and the order
    and numbers of versions in types/protocol_versions.rs. RLP is as the [alloy_rlp] crate reads and writes it (Trie_Model, ExecDb_Model). *)
From Verif Require Import Base Trie_Model StateContent_Model ExecDb_Model.

(** protocol_versions.rs:15-25 *)
Inductive version := V0 | V1 | V2 | Unspecified (n : N).
(** 27-38 [deref]; 110-114: versions are ordered by it *)
Definition number (v : version) : N := match v with V0 => 0 | V1 => 1 | V2 => 2 | Unspecified n => n end.
(** 52-61 [From<u8>] *)
Definition version_of (n : N) : version := if n =? 0 then V0 else if n =? 1 then V1 else if n =? 2 then V2 else Unspecified n.
(** protocol_info.rs:15-20 *)
Record info := { lowest : version; highest : version; chain : N }.
(** 23-39 [new] *)
Definition new_info (a b : version) (c : N) : outcome info := if number a <=? number b then Ok {| lowest := a; highest := b; chain := c |} else Err.
(** 53-55 *)
Definition supports (i : info) (v : version) : bool := (number (lowest i) <=? number v) && (number v <=? number (highest i)).
(** [min..=max] *)
Definition span (a b : N) : list N := map (fun k => a + N.of_nat k) (seq 0 (N.to_nat (b + 1 - a))).
(** 60-71 *)
Definition highest_common (i j : info) : option version :=
  if chain i =? chain j then find (supports j) (map version_of (rev (span (number (lowest i)) (number (highest i))))) else None.
(** 73-96 *)
Definition fields (i : info) : bytes := rlp_uint (number (lowest i)) ++ rlp_uint (number (highest i)) ++ rlp_uint (chain i).
Definition encode_info (i : info) : bytes := rlp_list (fields i).
(** [<u8 as Decodable>::decode], [<u64 as Decodable>::decode]: integers of at most [n] bytes; what follows is left. *)
Definition take_uint (n : nat) (b : bytes) : option (N * bytes) :=
  match rlp_split b with
  | Some (false, p, rest) => match as_uint n (false, p, firstn (length b - length rest) b) with Some x => Some (x, rest) | None => None end
  | _ => None
  end.
(** 98-140 [decode]: the integers are read from the whole buffer; 104, 120-126: they must end within the list; 127-132: the rest of the list is skipped.
    [Header::decode] takes only headers in their shortest form. *)
Definition decode_info (b : bytes) : outcome (info * bytes) :=
  match rlp_split b with
  | Some (true, payload, rest) =>
      if negb (beqb (firstn (length b - length rest) b) (rlp_list payload)) then Err else
      let buf := payload ++ rest in
      match take_uint 1 buf with
      | None => Err
      | Some (lo, buf1) =>
      match take_uint 1 buf1 with
      | None => Err
      | Some (hi, buf2) =>
      match take_uint 8 buf2 with
      | None => Err
      | Some (c, buf3) =>
          let consumed := (length buf - length buf3)%nat in
          if (length payload <? consumed)%nat then Err
          else omap (fun i => (i, skipn (length payload - consumed) buf3)) (new_info (version_of lo) (version_of hi) c)
      end end end
  | _ => Err
  end.
