(** The sparse Merkle tree and Merkle proofs: /repo/crates/validation/src/merkle/proof.rs.

    [sha] stands for SHA-256 (the crate [ethereum_hashing]: [hash x] is [sha x] and
    [hash32_concat a b] is [sha (a ++ b)]); it is an arbitrary function here.  A [B256] is a
    byte string.  Depths are [nat]; [2usize.pow] does not overflow for the depths in use. *)
From Verif Require Import Base.

(** proof.rs:10: the tables of zero nodes. *)
Definition max_tree_depth : nat := 32.
Definition zero_leaf : bytes := repeat 0 32.

(** proof.rs:24-36 *)
Inductive tree :=
| Finalized (h : bytes)
| Leaf (h : bytes)
| Node (h : bytes) (l r : tree)
| Zero (depth : nat).

(** proof.rs:39-67 (those that are reported) *)
Inductive tree_error :=
| LeafReached | MerkleTreeFull | Invalid | DepthTooSmall | ZeroNodeFinalized | FinalizedNodePushed
| EmptyBranchWithNonZeroDeposits | EndOfTree | ProofEncounteredFinalizedNode | PleaseNotifyTheDevs.
Inductive result (A : Type) := ROk (a : A) | RErr (e : tree_error) | RPanic.
Arguments ROk {A} a.
Arguments RErr {A} e.
Arguments RPanic {A}.

Section Sha.
Context (sha : bytes -> bytes).

(** [ethereum_hashing::ZERO_HASHES] (up to depth 48; beyond that the lookup panics, which is
    not modelled: all uses have depth at most 32). *)
Fixpoint zero_hash (d : nat) : bytes :=
  match d with O => zero_leaf | S d' => sha (zero_hash d' ++ zero_hash d') end.

(** proof.rs:166-173 [hash] *)
Definition hash (t : tree) : bytes :=
  match t with Finalized h => h | Leaf h => h | Node h _ _ => h | Zero d => zero_hash d end.

(** proof.rs:72-103 [create].  A depth of zero with more than one leaf keeps the first (it
    fails a debug assertion in debug builds). *)
Fixpoint create (leaves : list bytes) (depth : nat) : tree :=
  match leaves with
  | [] => Zero depth
  | x :: _ =>
      match depth with
      | O => Leaf x
      | S d =>
          let cap := (2 ^ d)%nat in
          let (ll, rl) := if (length leaves <=? cap)%nat then (leaves, []) else (firstn cap leaves, skipn cap leaves) in
          let lt := create ll d in
          let rt := create rl d in
          Node (sha (hash lt ++ hash rt)) lt rt
      end
  end.

(** proof.rs:107-163 [push_leaf].  The tree is changed in place only on success. *)
Fixpoint push_leaf (t : tree) (elem : bytes) (depth : nat) : result tree :=
  match depth with
  | O => RErr DepthTooSmall
  | S d =>
      match t with
      | Leaf _ => RErr LeafReached
      | Zero _ => ROk (create [elem] depth)
      | Finalized _ => RErr FinalizedNodePushed
      | Node _ l r =>
          let node l r := ROk (Node (sha (hash l ++ hash r)) l r) in
          match l, r with
          | Leaf _, Leaf _ | Finalized _, Leaf _ => RErr MerkleTreeFull
          | Node _ _ _, Node _ _ _ | Finalized _, Node _ _ _ =>
              match push_leaf r elem d with ROk r' => node l r' | RErr e => RErr e | RPanic => RPanic end
          | Zero _, Zero _ => node (create [elem] d) r
          | Leaf _, Zero _ | Finalized _, Zero _ => node l (create [elem] d)
          | Node _ _ _, Zero _ =>
              match push_leaf l elem d with
              | ROk l' => node l' r
              | RErr MerkleTreeFull => node l (create [elem] d)
              | RErr e => RErr e
              | RPanic => RPanic
              end
          | _, _ => RErr Invalid
          end
      end
  end.

(** proof.rs:176-182 [left_and_right_branches]; [ROk None] is [None], and the table of zero
    nodes has [max_tree_depth + 1] entries. *)
Definition left_and_right (t : tree) : result (option (tree * tree)) :=
  match t with
  | Finalized _ | Leaf _ | Zero O => ROk None
  | Node _ l r => ROk (Some (l, r))
  | Zero (S d) => if (d <=? max_tree_depth)%nat then ROk (Some (Zero d, Zero d)) else RPanic
  end.

(** proof.rs:190-223 [finalize_deposits].  After an error the tree may be partly finalized;
    the model drops it. *)
Fixpoint finalize_deposits (t : tree) (n : N) (level : nat) : result tree :=
  match t with
  | Finalized h => ROk (Finalized h)
  | Zero _ => RErr ZeroNodeFinalized
  | Leaf h => match level with O => ROk (Finalized h) | _ => RErr PleaseNotifyTheDevs end
  | Node h l r =>
      match level with
      | O => RErr PleaseNotifyTheDevs
      | S lv =>
          let deposits := 2 ^ N.of_nat level in
          if deposits <=? n then ROk (Finalized h)
          else
            match finalize_deposits l n lv with
            | ROk l' =>
                if deposits / 2 <? n then
                  match finalize_deposits r (n - deposits / 2) lv with
                  | ROk r' => ROk (Node h l' r')
                  | RErr e => RErr e
                  | RPanic => RPanic
                  end
                else ROk (Node h l' r)
            | RErr e => RErr e
            | RPanic => RPanic
            end
      end
  end.

(** proof.rs:225-240 [get_finalized_hashes] *)
Fixpoint finalized_hashes (t : tree) : list bytes :=
  match t with
  | Zero _ | Leaf _ => []
  | Finalized h => [h]
  | Node _ l r => finalized_hashes l ++ finalized_hashes r
  end.

(** proof.rs:242-289 [from_finalized_snapshot] *)
Fixpoint from_snapshot (branch : list bytes) (count : N) (level : nat) : result tree :=
  match branch with
  | [] => if count =? 0 then ROk (Zero level) else RErr EmptyBranchWithNonZeroDeposits
  | h :: rest =>
      if count =? 2 ^ N.of_nat level then ROk (Finalized h)
      else
        match level with
        | O => RErr EndOfTree
        | S lv =>
            let node l r := ROk (Node (sha (hash l ++ hash r)) l r) in
            if 2 ^ N.of_nat lv <=? count then
              match from_snapshot rest (count - 2 ^ N.of_nat lv) lv with
              | ROk r => node (Finalized h) r
              | RErr e => RErr e
              | RPanic => RPanic
              end
            else
              match from_snapshot branch count lv with
              | ROk l => node l (Zero lv)
              | RErr e => RErr e
              | RPanic => RPanic
              end
        end
  end.

(** proof.rs:295-331 [generate_proof]: the loop, top down. *)
Fixpoint proof_loop (t : tree) (index : N) (depth : nat) (proof : list bytes) : result (tree * list bytes) :=
  match depth with
  | O => ROk (t, proof)
  | S d =>
      match t with
      | Finalized _ => RErr ProofEncounteredFinalizedNode
      | _ =>
          match left_and_right t with
          | ROk (Some (l, r)) =>
              if N.testbit index (N.of_nat d) then proof_loop r index d (proof ++ [hash l])
              else proof_loop l index d (proof ++ [hash r])
          | _ => RPanic
          end
      end
  end.
(** In debug builds an assertion requires the node reached to be a leaf ([is_leaf], 185-187):
    there a proof for an index past the last leaf panics.  [debug] selects the build. *)
Definition is_leaf (t : tree) : bool := match t with Leaf _ => true | _ => false end.
Definition generate_proof (debug : bool) (t : tree) (index : N) (depth : nat) : result (bytes * list bytes) :=
  match proof_loop t index depth [] with
  | ROk (node, proof) => if debug && negb (is_leaf node) then RPanic else ROk (hash node, rev proof)
  | RErr e => RErr e
  | RPanic => RPanic
  end.

(** proof.rs:388-405 [merkle_root_from_branch] (its loop, starting at bit [i]) *)
Fixpoint root_from_branch (root : bytes) (branch : list bytes) (index : N) (i : N) : bytes :=
  match branch with
  | [] => root
  | h :: rest => root_from_branch (if N.testbit index i then sha (h ++ root) else sha (root ++ h)) rest index (i + 1)
  end.
(** proof.rs:372-384 [verify_merkle_proof] *)
Definition verify_merkle_proof (leaf : bytes) (branch : list bytes) (depth : nat) (index : N) (root : bytes) : bool :=
  (length branch =? depth)%nat && beqb (root_from_branch leaf branch index 0) root.
End Sha.
