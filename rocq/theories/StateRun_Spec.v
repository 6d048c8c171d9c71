(** What the state bridge should offer, block by block, and launches one after another. *)
From Verif Require Import Base ExecDb_Model ExecDb_Spec ExecRun_Model ExecRun_Spec StateRun_Model.

(** What is offered for one block: the block of the chain with its number and its state root, with the
    changes of this block and of no other. *)
Definition of_block {body} (chain : N -> block body) (n : N) (it : item body) : Prop :=
  let h := fst (chain n) in
  i_block it = chain n /\ i_root it = h_state_root h /\
  exists b, i_diff it = [Executed h; Committed h b] /\ i_cache it = [Executed h; Committed h b].
(** The items of the blocks from [p] on. *)
Definition of_blocks {body} (chain : N -> block body) (p : N) (l : list (item body)) : Prop :=
  forall j it, nth_error l j = Some it -> of_block chain (p + N.of_nat j) it.
(** The bridge is launched again and again for the same snapshot, each time on what is on disk. *)
Fixpoint relaunched {body} (keccak : bytes -> bytes) (root_of : kv -> bytes) (number : N) (ws : list (servers body)) (disk : state)
  : list (outcome (N * bytes * kv)) :=
  match ws with
  | [] => []
  | w :: ws => let (disk', o) := launch_snapshot keccak root_of number w disk in o :: relaunched keccak root_of number ws disk'
  end.
