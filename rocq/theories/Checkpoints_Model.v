(** Model of /repo/crates/light-client/src/config/checkpoints.rs (checkpoints from services) and of the start and the shutdown
    of the light client in /repo/crates/light-client/src/client.rs.

    A service is asked once and answers with slots, or not in time or not in JSON ([None]).  The order of a HashMap is a
    parameter ([order]).  The list of services comes from a server and is given.  The sync of the consensus client from a
    checkpoint is a parameter (LightClient_Model has it). *)
From Coq Require Import String Ascii.
From Verif Require Import Base Args_Model.

(** checkpoints.rs:26-34 [Slot] *)
Record slot := { block_root : option bytes; epoch : N }.
(** checkpoints.rs:53-70 [CheckpointFallbackService]; [replies]: what [query_service] gets from it *)
Record service := { endpoint : bytes; state : bool; replies : option (list slot) }.

(** checkpoints.rs:277-287 [get_healthy_fallback_services] *)
Definition get_healthy_fallback_services (l : list service) : list service := filter state l.
(** checkpoints.rs:142-165: the slot of one service *)
Definition task (s : service) : option slot :=
  match replies s with
  | None => None
  | Some [] => None
  | Some slots => find (fun x => match block_root x with Some _ => true | None => false end) slots
  end.
Fixpoint filter_map {A B} (f : A -> option B) (l : list A) : list B :=
  match l with [] => [] | x :: l => match f x with Some y => y :: filter_map f l | None => filter_map f l end end.
(** std: [Iterator::max_by_key], the last of the greatest *)
Fixpoint max_by_key {A} (key : A -> N) (l : list A) : option A :=
  match l with
  | [] => None
  | x :: l => match max_by_key key l with
              | None => Some x
              | Some y => if key x <=? key y then Some y else Some x
              end
  end.
(** checkpoints.rs:195-198: [*m.entry(c).or_default() += 1] *)
Fixpoint bump (c : bytes) (m : list (bytes * N)) : list (bytes * N) :=
  match m with
  | [] => [(c, 1)]
  | (k, v) :: m => if beqb k c then (k, v + 1) :: m else (k, v) :: bump c m
  end.
(** checkpoints.rs:136-205 [fetch_latest_checkpoint_from_services] and 118-125 [fetch_latest_checkpoint] *)
Definition fetch_latest_checkpoint_from_services (order : list (bytes * N) -> list (bytes * N)) (l : list service) : outcome bytes :=
  let slots := filter_map task l in
  match max_by_key epoch slots with
  | None => Err
  | Some m =>
      let checkpoints := filter_map block_root (filter (fun x => epoch x =? epoch m) slots) in
      let counts := fold_left (fun m c => bump c m) checkpoints [] in
      of_option (option_map fst (max_by_key snd (order counts)))
  end.
Definition fetch_latest_checkpoint order (l : list service) : outcome bytes :=
  fetch_latest_checkpoint_from_services order (get_healthy_fallback_services l).
(** checkpoints.rs:209-218 [fetch_checkpoint_from_api] *)
Definition fetch_checkpoint_from_api (reply : option (list slot)) : outcome bytes :=
  match reply with
  | None => Err
  | Some [] => Panic
  | Some (s :: _) => of_option (block_root s)
  end.
(** checkpoints.rs:231-235 [construct_url] *)
Fixpoint trim_start (c : N) (s : bytes) : bytes :=
  match s with x :: r => if x =? c then trim_start c r else s | [] => [] end.
Definition trim_end_matches (c : N) (s : bytes) : bytes := rev (trim_start c (rev s)).
Definition construct_url (e : bytes) : bytes := trim_end_matches 47 e ++ lit "/checkpointz/v1/beacon/slots".

(** ** client.rs *)
Inductive sync_result := Synced | TooOld | OtherError.
(** What was done: which checkpoints were tried, in order *)
Record attempt := { tried : list bytes; ok : outcome unit }.
Section Client.
Context (sync : bytes -> sync_result).   (* node.rs [sync] with the consensus client at this checkpoint *)
Context (order : list (bytes * N) -> list (bytes * N)).
(** client.rs:365-389 [boot_from_fallback]; [fallback]: the answer of the service that was given, if one was *)
Definition boot_from_fallback (fallback : option (option (list slot))) : attempt :=
  match fallback with
  | None => {| tried := []; ok := Err |}
  | Some reply =>
      match fetch_checkpoint_from_api reply with
      | Ok c => {| tried := [c]; ok := match sync c with Synced => Ok tt | _ => Err end |}
      | Err => {| tried := []; ok := Err |}
      | Panic => {| tried := []; ok := Panic |}
      end
  end.
(** client.rs:391-418 [boot_from_external_fallbacks]; [services]: the list, if it could be read *)
Definition boot_from_external_fallbacks (services : option (list service)) : attempt :=
  match services with
  | None => {| tried := []; ok := Err |}
  | Some l =>
      match fetch_latest_checkpoint order l with
      | Ok c => {| tried := [c]; ok := match sync c with Synced => Ok tt | _ => Err end |}
      | Err => {| tried := []; ok := Err |}
      | Panic => {| tried := []; ok := Panic |}
      end
  end.
(** client.rs:312-346 [start], and 266-272 [new]: the checkpoint of the configuration, or else the one of the database *)
Definition start (configured : option bytes) (stored : bytes) (fallback : option (option (list slot))) (load_external : bool) (services : option (list service)) : attempt :=
  let c := match configured with Some c => c | None => stored end in
  match sync c with
  | Synced => {| tried := [c]; ok := Ok tt |}
  | OtherError => {| tried := [c]; ok := Err |}
  | TooOld =>
      let f := boot_from_fallback fallback in
      match ok f with
      | Ok _ => {| tried := c :: tried f; ok := Ok tt |}
      | Panic => {| tried := c :: tried f; ok := Panic |}
      | Err =>
          if load_external then let e := boot_from_external_fallbacks services in {| tried := c :: tried f ++ tried e; ok := ok e |}
          else {| tried := c :: tried f; ok := Err |}
      end
  end.
End Client.
