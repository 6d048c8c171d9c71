(** Vocabulary for the content of the state network. *)
From Verif Require Import Base Keys_Model Keys_Spec Distance_Model Store_Model Store_Spec Trie_Model StateContent_Model.

(** A trie node has at most 1024 bytes, a proof at most 65 of them, a bytecode at most 32768. *)
Definition node_ok (n : bytes) : Prop := blen n <= 1024 /\ bytes_ok n.
Definition proof_ok (p : list bytes) : Prop := blen p <= 65 /\ Forall node_ok p.
Definition code_ok (c : bytes) : Prop := blen c <= 32768 /\ bytes_ok c.

(** The values that may stand under a key: with its proof, or bare. *)
Definition state_value_ok (k : state_key) (v : state_value) : Prop :=
  match k, v with
  | AccountTrieNode _ _, TrieNode n => node_ok n
  | AccountTrieNode _ _, AccountTrieNodeWithProof p h => proof_ok p /\ hash32 h
  | ContractStorageTrieNode _ _ _, TrieNode n => node_ok n
  | ContractStorageTrieNode _ _ _, ContractStorageTrieNodeWithProof s a h => proof_ok s /\ proof_ok a /\ hash32 h
  | ContractBytecode _ _, Bytecode c => code_ok c
  | ContractBytecode _ _, BytecodeWithProof c a h => code_ok c /\ proof_ok a /\ hash32 h
  | _, _ => False
  end.

(** The hash that a key asks for. *)
Definition wanted (k : state_key) : bytes :=
  match k with AccountTrieNode _ h | ContractStorageTrieNode _ _ h | ContractBytecode _ h => h end.
(** The value that carries [x], and nothing else, under the key. *)
Definition bare (k : state_key) (x : bytes) : state_value :=
  match k with ContractBytecode _ _ => Bytecode x | _ => TrieNode x end.
(** The block that a value names, if it comes with a proof. *)
Definition names (v : state_value) (block : bytes) : Prop :=
  match v with
  | AccountTrieNodeWithProof _ h | ContractStorageTrieNodeWithProof _ _ h | BytecodeWithProof _ _ h => h = block
  | _ => False
  end.
(** The node or bytecode that a value with a proof is about. *)
Definition carries (v : state_value) (x : bytes) : Prop :=
  match v with
  | AccountTrieNodeWithProof p _ => p <> [] /\ last p [] = x
  | ContractStorageTrieNodeWithProof s _ _ => s <> [] /\ last s [] = x
  | BytecodeWithProof c _ _ => c = x
  | _ => False
  end.

(** What happens to a node's state storage: [put] with any key and value, restarts, and deaths of
    the process in the middle of a [put]. *)
Inductive state_op :=
| SPut (ties : nat -> row -> N) (durs : nat -> duration) (key : state_key) (value : bytes)
| SReopen (c : config) (ties : nat -> row -> N) (durs : nat -> duration)
| SCrash (ties : nat -> row -> N) (durs : nat -> duration) (key : state_key) (value : bytes) (n : nat)
         (c : config) (ties' : nat -> row -> N) (durs' : nat -> duration).
Definition state_op_ok (o : state_op) : Prop :=
  match o with
  | SPut _ _ k v => state_valid k /\ bytes_ok v
  | SReopen c _ _ => config_ok c
  | SCrash _ _ k v _ c _ _ => config_ok c /\ state_valid k /\ bytes_ok v
  end.

Section Run.
Context (keccak sha : bytes -> bytes).
Definition state_id (k : state_key) : bytes := sha (state_to_bytes k).
Definition state_step (s : store) (o : state_op) : option store :=
  match o with
  | SPut ties durs k b =>
      match stored_form keccak k b with
      | Ok v => Some (fst (insert sha ties durs (state_to_bytes k) v s))
      | _ => Some s
      end
  | SReopen c ties durs => step sha s (OReopen c ties durs)
  | SCrash ties durs k b n c ties' durs' =>
      match stored_form keccak k b with
      | Ok v => step sha s (OCrash ties durs (state_to_bytes k) v n c ties' durs')
      | _ => step sha s (OReopen c ties' durs')
      end
  end.
Fixpoint state_run (s : store) (ops : list state_op) : option store :=
  match ops with
  | [] => Some s
  | o :: ops' => match state_step s o with Some s' => state_run s' ops' | None => None end
  end.
(** storage.rs:27-29 [get] *)
Definition state_get (k : state_key) (s : store) : option bytes := lookup (state_id k) s.
End Run.
