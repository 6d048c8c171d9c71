(** Vocabulary for traces. *)
From Verif Require Import Base Trace_Model.

(** A record was seen: its node answered with it ([true]), or another node named it *)
Inductive seen (e : enr) : bool -> call -> Prop :=
| seen_nodes l now : seen e true (Nodes e l now)
| seen_content now : seen e true (Content e now)
| seen_named x l now : In e l -> seen e false (Nodes x l now).
(** The node [n] answered at [now], naming [l] *)
Inductive answers (n : bytes) : call -> list bytes -> N -> Prop :=
| answers_nodes e l now : id e = n -> answers n (Nodes e l now) (map id l) now.
Inductive sends (n : bytes) : call -> N -> Prop :=
| sends_content e now : id e = n -> sends n (Content e now) now.
(** What [n] named in these calls, in order *)
Inductive named_by (n : bytes) : list call -> list bytes -> Prop :=
| named_nil : named_by n [] []
| named_yes c l names r now : answers n c names now -> named_by n l r -> named_by n (c :: l) (names ++ r)
| named_no c l r : (forall names now, ~ answers n c names now) -> named_by n l r -> named_by n (c :: l) r.
(** Milliseconds from [t] to [now], as a number of 64 bits *)
Definition elapsed (t now : N) : N := N.min (now - t) (2 ^ 64 - 1).
(** The nodes that a trace lists under [n] *)
Definition listed (t : trace) (n : bytes) : list bytes := match responses t n with Some r => responded_with r | None => [] end.
(** The nodes that were still asked when this happened *)
Inductive left_open : happening -> list bytes -> Prop :=
| left_answer source enrs pending now : left_open (Answered source enrs pending now) pending
| left_end peer stopped : left_open (Ended peer stopped) stopped.
