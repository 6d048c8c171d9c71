(** Vocabulary for the identity of a node. *)
From Verif Require Import Base Args_Model Identity_Model.

(** The node was started without a key of its own, and runs with the key [k] *)
Definition ran_with (s : start) (r : result) (k : bytes) : Prop := given s = None /\ exists dir, r = Started dir k.
(** It was started without a key of its own, and does not run *)
Definition refused (s : start) (r : result) : Prop := given s = None /\ r = Refused.
(** An empty directory *)
Definition empty : data_dir := {| key_file := None; dirs := [] |}.
(** What is left of checkpoints that were saved, in this order; [Some n]: the process stopped after [n] bytes *)
Definition saved (l : list (bytes * option nat)) (file : option bytes) : option bytes :=
  fold_left (fun f x => save_checkpoint (fst x) (snd x) f) l file.
