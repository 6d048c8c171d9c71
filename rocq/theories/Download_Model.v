(** Downloads of files: /repo/bin/trin-execution/src/e2hs/utils.rs:47-70 [download_raw_e2store_file] and /repo/bin/trin-execution/src/subcommands/e2ss/utils.rs:27-93 [download_with_progress].

    What the server answers to each attempt, the pieces in which a body comes and the time since the last report at each of them are arguments.  Not modelled: the pauses between
    attempts, the messages, and writes to the disk that fail after a part of a piece. *)
From Coq Require Import QArith.
From Verif Require Import Base F64_Model.
Open Scope N_scope.

(** An attempt: no answer, an answer whose body breaks off, or a body with the status of the answer *)
Inductive attempt := Unreached | Broken | Got (status : N) (body : bytes).
(** e2hs/utils.rs:52-66: the number of requests and the result; [left]: how many more there may be after this one *)
Fixpoint download_from (server : N -> attempt) (attempts : N) (left : nat) : N * outcome bytes :=
  match server attempts with
  | Unreached => (attempts, Err)
  | Got _ body => (attempts, Ok body)
  | Broken => if 10 <=? attempts then (attempts, Err) else match left with O => (attempts, Err) | S l => download_from server (attempts + 1) l end
  end.
Definition download_raw (server : N -> attempt) : N * outcome bytes := download_from server 1 9.

(** A piece of the body, or an error; and the time since the last report, in seconds *)
Record piece := { p_data : option bytes; p_elapsed : Q }.
(** e2ss/utils.rs:62-83 (the clock is read twice there, here once): a speed of 0 makes the time infinite or no number; [Duration::from_secs_f64] panics then, and from 2^64 seconds on *)
Definition report (total amount last_amount : N) (elapsed : Q) : outcome unit :=
  if total =? 0 then Ok tt
  else if amount - last_amount =? 0 then Panic
  else if Qle_bool (inject_Z (2 ^ 64)) (fdiv (f64_of (total - amount)) (fdiv (f64_of (amount - last_amount)) elapsed)) then Panic
  else Ok tt.
(** e2ss/utils.rs:48-89 *)
Fixpoint receive (total : N) (l : list piece) (amount last_amount : N) (file : bytes) : bytes * outcome unit :=
  match l with
  | [] => (file, Ok tt)
  | p :: l =>
      match p_data p with
      | None => (file, Err)
      | Some c =>
          let amount := amount + blen c in
          if Qle_bool 2 (p_elapsed p) then
            match report total amount last_amount (p_elapsed p) with
            | Ok _ => receive total l amount amount (file ++ c)
            | r => (file ++ c, r)
            end
          else receive total l amount last_amount (file ++ c)
      end
  end.
(** e2ss/utils.rs:27-93.  [answer]: the length it announces, if any, and the pieces, whatever its status; [creates]: whether the file can be created; [old]: what is at the path. *)
Definition download_with_progress (answer : option (option N * list piece)) (creates : bool) (old : option bytes) : option bytes * outcome unit :=
  match answer with
  | None => (old, Err)
  | Some (len, l) =>
      if creates then let (f, r) := receive (match len with Some n => n | None => 0 end) l 0 0 [] in (Some f, r) else (old, Err)
  end.
