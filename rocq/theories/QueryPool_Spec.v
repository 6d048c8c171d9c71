(** Histories of a pool of lookups, as seen from outside. *)
From Verif Require Import Base.
From Verif Require Import Query_Model QueryPool_Model.

Section Spec.
Context {Q : Type} (qpoll : Q -> N -> Q * query_state) (overall_timeout : Q -> N).

Inductive pool_line := LAdd (id : N) | LChange (id : N) | LPoll (now : N) (s : pool_state Q).
Inductive pool_history : pool Q -> list pool_line -> Prop :=
  | PH_start : pool_history new_pool []
  | PH_add p t q p' id : pool_history p t -> add_query p q = (p', id) -> pool_history p' (t ++ [LAdd id])
  | PH_change p t id f : pool_history p t -> pool_history (change_query p id f) (t ++ [LChange id])
  | PH_poll p t now shuffled p' s : pool_history p t -> Permutation (entries p) shuffled ->
      pool_poll qpoll overall_timeout p now shuffled = (p', s) -> pool_history p' (t ++ [LPoll now s]).

Definition added (t : list pool_line) : list N := flat_map (fun l => match l with LAdd id => [id] | _ => [] end) t.
(** Lookups reported finished or timed out. *)
Definition reported (t : list pool_line) : list N :=
  flat_map (fun l => match l with LPoll _ (SFinished id _) | LPoll _ (STimeout id _) => [id] | _ => [] end) t.
Definition held (p : pool Q) : list N := map (@e_id Q) (entries p).
End Spec.

(** How far apart two log distances are. *)
Definition gap (a b : N) : N := N.max a b - N.min a b.
