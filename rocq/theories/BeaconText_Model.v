(** Beacon data in text, as providers of it send it: /repo/crates/ethportal-api/src/types/consensus/{pubkey,signature,kzg_commitment,serde}.rs
    and /repo/crates/ethportal-api/src/utils/serde/{hex_fixed_vec,hex_var_list}.rs.

    A string of JSON is its UTF-8 bytes, with the escapes of JSON undone.  SHA-256 is an argument.  Of the libraries: [FixedVector::from]
    and [VariableList::from] of ssz_types cut or fill with zeros, [FixedVector::new] and [VariableList::new] check the length;
    [U256::from_str_radix] of ruint skips underscores and reads no digits as 0.  Not modelled: the structs around these fields,
    serde_this_or_that's [as_u64], and Merkle roots. *)
From Verif Require Import Base Hex_Model Providers_Model.

(** [FixedVector::from(Vec<u8>)] and [VariableList::from(Vec<u8>)] *)
Definition fixed_from (n : nat) (v : bytes) : bytes := firstn n (v ++ repeat 0 n).
Definition list_from (n : N) (v : bytes) : bytes := if blen v <=? n then v else firstn (N.to_nat n) v.

(** pubkey.rs:73-83; 61-72; 37-41 [from_ssz_bytes] *)
Definition pubkey_text (k : bytes) : bytes := hex_encode k.
Definition pubkey_read (s : bytes) : outcome bytes := omap (fixed_from 48) (hex_decode s).
Definition pubkey_ssz (b : bytes) : outcome bytes := Ok (fixed_from 48 b).

(** [copy_from_slice] into 96 bytes *)
Definition copied (b : bytes) : outcome bytes := if blen b =? 96 then Ok b else Panic.
(** signature.rs:66-74; 52-64; 31-35 [from_ssz_bytes] *)
Definition signature_text (b : bytes) : bytes := hex_encode b.
Definition signature_read (s : bytes) : outcome bytes := obind (hex_decode s) copied.
Definition signature_ssz (b : bytes) : outcome bytes := copied b.

(** kzg_commitment.rs:73-80, 113-117; 92-111; 42-54; 25-29 *)
Definition commitment_text (b : bytes) : bytes := hex_encode b.
Definition commitment_read (s : bytes) : outcome bytes := obind (hex_decode s) (fun b => if blen b =? 48 then Ok b else Err).
Definition ellipsis : bytes := [226; 128; 166].
Definition commitment_display (b : bytes) : bytes :=
  [48; 120] ++ hex_chars hex_digit (firstn 2 b) ++ ellipsis ++ hex_chars hex_digit (skipn (48 - 2) b).
Definition versioned_hash (sha256 : bytes -> bytes) (b : bytes) : bytes := 1 :: tl (sha256 b).

(** serde_utils [PrefixedHexVisitor]: unlike [hex_decode], only "0x" *)
Definition prefixed (s : bytes) : outcome bytes :=
  match s with
  | c1 :: c2 :: h => if (c1 =? 48) && (c2 =? 120) then hex_decode_raw h else Err
  | _ => Err
  end.
(** hex_fixed_vec.rs:7-13, 15-23: the bloom filter of a payload, of 256 bytes *)
Definition fixed_text (b : bytes) : bytes := hex_encode b.
Definition fixed_read (n : N) (s : bytes) : outcome bytes := obind (prefixed s) (fun b => if blen b =? n then Ok b else Err).
(** hex_var_list.rs:7-13, 15-23: its extra data, of at most 32 bytes *)
Definition list_text (b : bytes) : bytes := hex_encode b.
Definition list_read (n : N) (s : bytes) : outcome bytes := obind (prefixed s) (fun b => if blen b <=? n then Ok b else Err).

(** serde.rs:20-25 [se_hex_to_number]; 27-38 [de_number_to_u256]: the base fee *)
Definition number_text (n : N) : bytes := radix 256 10 hex_digit n.
Definition number_step (a : outcome N) (c : N) : outcome N :=
  obind a (fun a =>
    if c =? 95 then Ok a
    else if (48 <=? c) && (c <=? 57) then (let x := a * 10 + (c - 48) in if x <? 2 ^ 256 then Ok x else Err)
    else Err).
Definition number_read (s : bytes) : outcome N := fold_left number_step s (Ok 0).

(** body.rs:199-200 *)
Definition max_transaction : N := 2 ^ 30.
Definition max_transactions : N := 2 ^ 20.
(** serde.rs:9-18 [se_txs_to_hex]; 40-54 [de_hex_to_txs]: one after the other, each is added while there is room *)
Definition txs_text (l : list bytes) : list bytes := map hex_encode l.
Fixpoint read_txs (l : list bytes) (txs : list bytes) : outcome (list bytes) :=
  match l with
  | [] => Ok txs
  | s :: l =>
      obind (hex_decode s) (fun b => if blen txs <? max_transactions then read_txs l (txs ++ [list_from max_transaction b]) else Err)
  end.
Definition txs_read (l : list bytes) : outcome (list bytes) := read_txs l [].
