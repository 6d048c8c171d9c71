(** Words for the property about what nodes say of their protocol. *)
From Verif Require Import Base Trie_Model StateContent_Model ExecDb_Model ProtoInfo_Model.

(** A version under its own name, as the code makes them from numbers of 8 bits. *)
Definition named (v : version) : Prop := match v with Unspecified n => 3 <= n < 256 | _ => True end.
(** What [new] takes. *)
Definition sound (i : info) : Prop := number (lowest i) <= number (highest i) < 256 /\ chain i < 2 ^ 64.
Definition has (i : info) (v : version) : Prop := number (lowest i) <= number v <= number (highest i).
(** The bytes of a record of a node that may know more fields: the three integers and then anything. *)
Definition wire (lo hi c : N) (more : bytes) : bytes := rlp_list (rlp_uint lo ++ rlp_uint hi ++ rlp_uint c ++ more).
