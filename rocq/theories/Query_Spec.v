(** What an observer of one lookup knows, computed from the calls made to it and its answers
    alone; nothing here looks inside a lookup. *)
From Verif Require Import Base.
From Verif Require Import Query_Model.

(** One line of the transcript of a lookup: a call of [poll] at some instant with its answer; a
    reply of a peer; a failed request; for content lookups also the verdict on some content, as
    sent by the service to the lookup. *)
Inductive event :=
  | EPoll (now : N) (answer : query_state)
  | ESuccess (id : N) (r : response)
  | EFailure (id : N)
  | EVerdict (v : option validated).

Record view := {
  known : list N;                (** peers named so far, each once *)
  contacted : list (N * N);      (** peers the lookup asked to contact, with the instant *)
  answered : list N;             (** contacted peers that replied first *)
  failed : list N;               (** contacted peers whose request failed first *)
  streak : N;                    (** replies since the last one that brought progress *)
  over : bool;                   (** a call of [poll] answered that the lookup is finished *)
  clock : N                      (** latest instant of a call of [poll] *)
}.

Definition mem (x : N) (l : list N) : bool := existsb (N.eqb x) l.
Fixpoint learn_all (l new : list N) : list N :=
  match new with
  | [] => l
  | x :: r => learn_all (if mem x l then l else l ++ [x]) r
  end.
Definition asked (v : view) : list N := map fst (contacted v).
(** A reply or failure counts if its peer was contacted and neither counted before, while the
    lookup runs. *)
Definition counts (v : view) (id : N) : bool :=
  negb (over v) && mem id (asked v) && negb (mem id (answered v)) && negb (mem id (failed v)).

(** Does a reply bring progress?  Only its last peer matters: it must be the closest peer
    known, or too few peers were known before. *)
Definition distance_to (target id : N) : N := N.lxor target id.
Definition brings_progress (c : config) (target : N) (before nodes : list N) : bool :=
  match rev nodes with
  | [] => false
  | id :: _ =>
      forallb (fun k => distance_to target id <=? distance_to target k) (before ++ nodes)
      || (blen before <? num_results c)
  end.

Definition view0 (c : config) (initial : list N) : view :=
  {| known := learn_all [] (firstn (N.to_nat (num_results c)) initial); contacted := []; answered := []; failed := [];
     streak := 0; over := false; clock := 0 |}.
Definition observe (c : config) (target : N) (v : view) (e : event) : view :=
  match e with
  | EPoll now a =>
      {| known := known v;
         contacted := match a with QWaiting (Some id) => contacted v ++ [(id, now)] | _ => contacted v end;
         answered := answered v; failed := failed v; streak := streak v;
         over := match a with QFinished => true | _ => over v end; clock := N.max (clock v) now |}
  | ESuccess id r =>
      if counts v id then
        match r with
        | ClosestNodes nodes =>
            {| known := learn_all (known v) nodes; contacted := contacted v; answered := answered v ++ [id];
               failed := failed v;
               streak := if brings_progress c target (known v) nodes then 0 else streak v + 1;
               over := over v; clock := clock v |}
        | Found _ =>
            {| known := known v; contacted := contacted v; answered := answered v ++ [id];
               failed := failed v; streak := streak v; over := over v; clock := clock v |}
        end
      else v
  | EFailure id =>
      if counts v id then
        {| known := known v; contacted := contacted v; answered := answered v; failed := failed v ++ [id];
           streak := streak v; over := over v; clock := clock v |}
      else v
  | EVerdict _ => v
  end.
Definition observe_all (c : config) (target : N) (initial : list N) (t : list event) : view :=
  fold_left (observe c target) t (view0 c initial).

(** A request is out: its peer has neither replied nor failed, and its time is not up. *)
Definition out_at (c : config) (v : view) (e : N * N) : bool :=
  negb (mem (fst e) (answered v)) && negb (mem (fst e) (failed v)) && (clock v <? snd e + peer_timeout c).
Definition in_flight (c : config) (v : view) : N := blen (filter (out_at c v) (contacted v)).
(** A peer is settled: it was contacted, and it replied or failed or its time is up. *)
Definition settled (c : config) (v : view) (id : N) : Prop :=
  exists now, In (id, now) (contacted v) /\
              (In id (answered v) \/ In id (failed v) \/ now + peer_timeout c <= clock v).
(** How many requests may be out. *)
Definition allowance (c : config) (v : view) : N :=
  if streak v <? parallelism c then parallelism c else num_results c.

(** [l] lists the members of [s] by increasing distance. *)
Definition closest_first (target : N) (l s : list N) : Prop :=
  Permutation l s /\ StronglySorted (fun a b => distance_to target a < distance_to target b) l.

(** The transcript of content lookups: who supplied content, whose content was announced for
    validation, and which verdicts were given. *)
Fixpoint supplied_from (c : config) (target : N) (v : view) (t : list event) : list (N * unvalidated) :=
  match t with
  | [] => []
  | e :: r =>
      match e with
      | ESuccess id (Found u) => if counts v id then [(id, u)] else []
      | _ => []
      end ++ supplied_from c target (observe c target v e) r
  end.
Definition supplied (c : config) (target : N) (initial : list N) (t : list event) : list (N * unvalidated) :=
  supplied_from c target (view0 c initial) t.
Definition announced (t : list event) : list N :=
  flat_map (fun e => match e with EPoll _ (QValidating id) => [id] | _ => [] end) t.
Definition verdicts (t : list event) : list (option validated) :=
  flat_map (fun e => match e with EVerdict v => [v] | _ => [] end) t.

(** Histories: a lookup together with its transcript, from its start. *)
Definition event_of (a : call) (r : option query_state) : option event :=
  match a, r with
  | CPoll now, Some s => Some (EPoll now s)
  | CSuccess id nodes, None => Some (ESuccess id (ClosestNodes nodes))
  | CFailure id, None => Some (EFailure id)
  | _, _ => None
  end.
Definition content_event_of (a : content_call) (r : option query_state) : option event :=
  match a, r with
  | CCPoll now, Some s => Some (EPoll now s)
  | CCSuccess id r, None => Some (ESuccess id r)
  | CCFailure id, None => Some (EFailure id)
  | CCVerdict v, None => Some (EVerdict v)
  | _, _ => None
  end.

Inductive history (c : config) (target : N) (initial : list N) : query -> list event -> Prop :=
  | H_start : history c target initial (new_query c target initial) []
  | H_step q t a q' r e : history c target initial q t ->
      step q a = Ok (q', r) -> event_of a r = Some e -> history c target initial q' (t ++ [e]).

(** A verdict may be sent only for content that was announced and got no verdict yet. *)
Definition verdict_allowed (t : list event) (a : content_call) : Prop :=
  match a with CCVerdict _ => blen (verdicts t) < blen (announced t) | _ => True end.
Inductive content_history (c : config) (target : N) (initial : list N) : content_query -> list event -> Prop :=
  | CH_start : content_history c target initial (new_content_query c target initial) []
  | CH_step f t a f' r e : content_history c target initial f t -> verdict_allowed t a ->
      content_step f a = Ok (f', r) -> content_event_of a r = Some e -> content_history c target initial f' (t ++ [e]).

(** The polls of a transcript made when every contacted peer had replied or failed, and which
    did not answer that the lookup is finished. *)
Definition idle (v : view) : bool := forallb (fun id => mem id (answered v) || mem id (failed v)) (asked v).
Fixpoint idle_polls_from (c : config) (target : N) (v : view) (t : list event) : N :=
  match t with
  | [] => 0
  | e :: r =>
      (match e with
       | EPoll _ QFinished => 0
       | EPoll _ _ => if idle v then 1 else 0
       | _ => 0
       end) + idle_polls_from c target (observe c target v e) r
  end.
Definition idle_polls (c : config) (target : N) (initial : list N) (t : list event) : N :=
  idle_polls_from c target (view0 c initial) t.

(** All peers a transcript names. *)
Definition named (initial : list N) (t : list event) : list N :=
  initial ++ flat_map (fun e => match e with ESuccess _ (ClosestNodes l) => l | _ => [] end) t.
