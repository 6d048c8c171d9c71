(** Vocabulary for checkpoints from services. *)
From Verif Require Import Base Checkpoints_Model.

(** The service says: [root] is the latest checkpoint, of the epoch [e].  That is the first slot with a root. *)
Definition says (s : service) (root : bytes) (e : N) : Prop :=
  exists slots before x after, replies s = Some slots /\ slots = before ++ x :: after /\
    Forall (fun y => block_root y = None) before /\ block_root x = Some root /\ epoch x = e.
(** How many of the services say so *)
Inductive votes (root : bytes) (e : N) : list service -> N -> Prop :=
| votes_nil : votes root e [] 0
| votes_yes s l n : says s root e -> votes root e l n -> votes root e (s :: l) (n + 1)
| votes_no s l n : ~ says s root e -> votes root e l n -> votes root e (s :: l) n.
(** The services that are listed as healthy *)
Definition healthy (l : list service) (s : service) : Prop := In s l /\ state s = true.
