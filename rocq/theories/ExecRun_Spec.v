(** What the blocks of a chain are, and which files carry them. *)
From Verif Require Import Base ExecDb_Model ExecDb_Spec ExecRun_Model.

Section Spec.
Context {body : Type}.
(** A chain has a block for every number. *)
Definition is_chain (chain : N -> block body) : Prop := forall n, h_number (fst (chain n)) = n.
(** A file of a chain: file [i] has its blocks from [8192 * i] on, at least one and at most 8192. *)
Definition file_of (chain : N -> block body) (i : N) (l : list (block body)) : Prop :=
  l <> [] /\ blen l <= 8192 /\ forall j b, nth_error l j = Some b -> b = chain (8192 * i + N.of_nat j).
(** A download that returns a file returns the one that was asked for. *)
Definition honest (chain : N -> block body) (files : N -> outcome (list (block body))) : Prop :=
  forall i l, files i = Ok l -> file_of chain i l.
(** The blocks [p, p + 1, ..., p + k - 1] of a chain. *)
Definition blocks_from (chain : N -> block body) (p : N) (k : nat) : list header :=
  map (fun i => fst (chain (p + N.of_nat i))) (seq 0 k).
End Spec.
(** Only a block that was just executed is committed. *)
Fixpoint commits_what_ran (l : list event) : Prop :=
  match l with
  | [] => True
  | Executed h :: r =>
      match r with
      | Committed h' _ :: r' => h' = h /\ commits_what_ran r'
      | _ => commits_what_ran r
      end
  | Committed _ _ :: _ => False
  end.
(** Calls one after another: up to a block, or only the next one ([None]). *)
Section Calls.
Context {body : Type} (keccak : bytes -> bytes) (root_of : kv -> bytes) (alloc : list (bytes * N)).
Definition call (c : option N * list (round body)) (n : node body) : node body * list event * option (outcome unit) :=
  match fst c with
  | Some last_block => process_range_of_blocks keccak root_of alloc last_block (snd c) n
  | None => process_next_block keccak root_of alloc (snd c) n
  end.
Fixpoint calls (l : list (option N * list (round body))) (n : node body) : node body * list event * list (option (outcome unit)) :=
  match l with
  | [] => (n, [], [])
  | c :: r => let '(n', tr, o) := call c n in let '(n'', tr', os) := calls r n' in (n'', tr ++ tr', o :: os)
  end.
End Calls.
