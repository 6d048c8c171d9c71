(** The names of history and state files: /repo/crates/e2store/src/e2hs.rs:125-137 and e2ss.rs:73-77, and what reads them: /repo/bin/e2hs-writer/src/subcommands/head_generator/mod.rs:110-116.
    The list of the names in a bucket is [HeadGen_Model.last_key]'s, a page with links [FileIndex_Model]'s.  Decimal numbers are written by [Args_Spec.write]. *)
From Coq Require Import String Ascii.
From Verif Require Import Base Hex_Model Ping_Model Args_Model Args_Spec FileIndex_Model.

(** Rust's format {:0w} of a number *)
Definition padded (w : nat) (n : N) : bytes := repeat 48 (w - length (write n)) ++ write n.
(** e2hs.rs:128 and e2ss.rs:76: the first four bytes of a hash *)
Definition short_hash (h : bytes) : bytes := hex_chars hex_digit (firstn 4 h).
(** e2hs.rs:133-137 *)
Definition e2hs_name (index : N) (last_block_hash : bytes) : bytes := lit "mainnet-" ++ padded 5 index ++ lit "-" ++ short_hash last_block_hash ++ lit ".e2hs".
(** e2ss.rs:73-77 *)
Definition e2ss_name (number : N) (state_root : bytes) : bytes := lit "mainnet-" ++ padded 10 number ++ lit "-" ++ short_hash state_root ++ lit ".e2ss".
(** mod.rs:110-116 [extract_index_from_file_name] *)
Definition extract_index (name : bytes) : outcome N :=
  match split 45 name with
  | [_; n; _] => match parse_u64 n with Some n => Ok n | None => Err end
  | _ => Err
  end.
