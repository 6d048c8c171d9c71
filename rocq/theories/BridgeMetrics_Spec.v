(** Vocabulary for the reports of a bridge. *)
From Coq Require Import String Ascii.
From Verif Require Import Base Args_Model BridgeMetrics_Model.

(** An offer of contents of this kind, to a client of this type, ended like this *)
Definition ended_as (k : bytes) (c : client) (t : trace) (x : offer * option trace) : Prop :=
  kind (fst x) = Some k /\ peer (fst x) = c /\ snd x = Some t.
(** [n] is the number of the members of [l] with [P] *)
Inductive number {A} (P : A -> Prop) : list A -> N -> Prop :=
| number_nil : number P [] 0
| number_yes x l n : P x -> number P l n -> number P (x :: l) (n + 1)
| number_no x l n : ~ P x -> number P l n -> number P (x :: l) n.
(** The names of clients that have a type of their own *)
Inductive own_type : bytes -> client -> Prop :=
| own_fluffy : own_type (lit "fluffy") Fluffy
| own_trin : own_type (lit "trin") Trin
| own_execution : own_type (lit "trin-execution") TrinExecution
| own_shisui : own_type (lit "shisui") Shisui
| own_ultralight : own_type (lit "ultralight") Ultralight
| own_samba : own_type (lit "samba") Samba.
