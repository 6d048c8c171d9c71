(** Vocabulary for tries: a whole trie in memory, what it contains, and how its nodes refer to
    each other. *)
From Verif Require Import Base Trie_Model.

Definition nibble (n : N) : Prop := n < 16.

(** A trie: no hash nodes, leaves and extensions carry nibbles, branches have 16 children. *)
Inductive trie : node -> Prop :=
| trie_empty : trie NEmpty
| trie_leaf k v : Forall nibble k -> trie (NLeaf (k ++ [16]) v)
| trie_ext p c : p <> [] -> Forall nibble p -> trie c -> trie (NExt p c)
| trie_branch l v : length l = 16%nat -> Forall trie l -> v <> Some [] -> trie (NBranch l v).

(** [at_path t p s]: going down [p] from the top of [t] one comes to the node [s]. *)
Inductive at_path : node -> bytes -> node -> Prop :=
| at_top n : at_path n [] n
| at_ext p c q s : at_path c q s -> at_path (NExt p c) (p ++ q) s
| at_branch l v i c q s : nth_error l i = Some c -> at_path c q s -> at_path (NBranch l v) (N.of_nat i :: q) s.

(** [holds t p v]: the trie maps the path [p] to the value [v]. *)
Definition holds (t : node) (p v : bytes) : Prop :=
  (exists q k, p = q ++ k /\ at_path t q (NLeaf (k ++ [16]) v)) \/
  (exists l, at_path t p (NBranch l (Some v))).

Section Hashes.
Context (keccak : bytes -> bytes).

(** The bytes of a node and of a trie's root hash. *)
Notation enc := (encode_raw keccak).
Definition root_hash (t : node) : bytes := keccak (enc t).

(** How a node looks to somebody who has only its bytes: a child of 32 bytes or more is a hash. *)
Fixpoint seen (n : node) : node :=
  let link c := if blen (enc c) <? 32 then seen c else NHash (keccak (enc c)) in
  match n with
  | NExt p c => NExt p (link c)
  | NBranch l v => NBranch (map link l) v
  | _ => n
  end.
(** What is asked of the decoder of nodes: it reads back what the encoder wrote, for nodes that
    fit in a proof. *)
Definition reads_back (decode_node : bytes -> outcome node) : Prop :=
  forall n, trie n -> blen (enc n) <= 1024 -> decode_node (enc n) = Ok (seen n).

(** The nodes of a proof have at most 1024 bytes (their type says so). *)
Definition sized (proof : list bytes) : Prop := Forall (fun x => blen x <= 1024) proof.
(** Every node of the trie fits. *)
Definition fits (t : node) : Prop := forall p s, at_path t p s -> blen (enc s) <= 1024.

(** A node of the proof that differs from a node of the trie and has the same hash. *)
Definition forged (t : node) (proof : list bytes) : Prop :=
  exists x p s, In x proof /\ at_path t p s /\ x <> enc s /\ keccak x = keccak (enc s).
(** Two different nodes, one of each proof, with the same hash. *)
Definition clash_between (p1 p2 : list bytes) : Prop :=
  exists x y, In x p1 /\ In y p2 /\ x <> y /\ keccak x = keccak y.
End Hashes.
