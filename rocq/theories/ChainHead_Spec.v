(** Vocabulary for the chain head properties: which headers and lists a history contains. *)
From Verif Require Import Base Header_Model ChainHead_Model.

(** The headers a history reports as attested, as final, and the lists of summaries, in order. *)
Fixpoint attested_in (ops : list head_op) : list lc_header :=
  match ops with
  | [] => []
  | ProcessUpdate a _ :: r | ProcessFinality a _ :: r | ProcessOptimistic a :: r => a :: attested_in r
  | UpdateSummaries _ :: r => attested_in r
  end.
Fixpoint final_in (ops : list head_op) : list lc_header :=
  match ops with
  | [] => []
  | ProcessUpdate _ f :: r | ProcessFinality _ f :: r => f :: final_in r
  | _ :: r => final_in r
  end.
Fixpoint lists_in (ops : list head_op) : list (list summary) :=
  match ops with
  | [] => []
  | UpdateSummaries l :: r => l :: lists_in r
  | _ :: r => lists_in r
  end.

(** [x] is the newest of a list of headers, the first one among those of the same slot. *)
Definition first_newest {A} (size : A -> N) (l : list A) (x : A) : Prop :=
  exists before after, l = before ++ x :: after /\
    (forall y, In y before -> size y < size x) /\ (forall y, In y after -> size y <= size x).
