(** Starting the light client: /repo/crates/light-client/src/client.rs, database.rs, node.rs:24-68, config/client_config.rs and
    consensus/consensus_client.rs:46-86, 480-508.

    What a sync with the network does from a checkpoint is in LightClient_Model; here it is an argument that says how it
    ends.  What the services for checkpoints answer (Checkpoints_Model) and whether a port can be bound are arguments.
    Times are whole seconds. *)
From Verif Require Import Base.

(** config/networks.rs, config/base.rs: what comes with a network; [chain] stands for the chain and its forks *)
Record base := { base_default : bytes; base_chain : N; base_max_age : N }.
(** client_config.rs:14-28 *)
Record settings := {
  consensus_rpc : bytes; rpc_port : option N; default_checkpoint : bytes; checkpoint : option bytes; data_dir : option bytes;
  chain : N; max_age : N; fallback : option bytes; load_external : bool; strict : bool }.
(** client.rs:25-36 *)
Record builder := {
  bd_network : option base; bd_rpc : option bytes; bd_checkpoint : option bytes; bd_port : option N; bd_dir : option bytes;
  bd_config : option settings; bd_fallback : option bytes; bd_external : bool; bd_strict : bool }.
(** client_config.rs:82-91 *)
Definition to_base (c : settings) : base := {| base_default := default_checkpoint c; base_chain := chain c; base_max_age := max_age c |}.
(** client.rs:109-153: the value that was set, else that of the configuration *)
Definition choose {A} (own : option A) (config : option settings) (f : settings -> option A) : option A :=
  match own with Some x => Some x | None => match config with Some c => f c | None => None end end.
Definition either (own : bool) (config : option settings) (f : settings -> bool) : bool :=
  match config with Some c => own || f c | None => own end.
(** client.rs:90-99, 173-182 *)
Definition base_config (b : builder) : outcome base :=
  match bd_network b with Some n => Ok n | None => match bd_config b with Some c => Ok (to_base c) | None => Err end end.
Definition assemble (b : builder) (n : base) (url : bytes) : settings :=
  {| consensus_rpc := url;
     rpc_port := choose (bd_port b) (bd_config b) rpc_port;
     default_checkpoint := match bd_config b with Some c => default_checkpoint c | None => base_default n end;
     checkpoint := choose (bd_checkpoint b) (bd_config b) checkpoint;
     data_dir := choose (bd_dir b) (bd_config b) data_dir;
     chain := base_chain n; max_age := base_max_age n;
     fallback := choose (bd_fallback b) (bd_config b) fallback;
     load_external := either (bd_external b) (bd_config b) load_external;
     strict := either (bd_strict b) (bd_config b) strict |}.
(** client.rs:89-170 [build] *)
Definition build (b : builder) : outcome settings :=
  obind (base_config b) (fun n =>
    match bd_rpc b with
    | Some u => Ok (assemble b n u)
    | None => match bd_config b with Some c => Ok (assemble b n (consensus_rpc c)) | None => Panic end
    end).
(** client.rs:172-246 [build_with_rpc] *)
Definition build_with_rpc (b : builder) : outcome settings := obind (base_config b) (fun n => Ok (assemble b n [])).

(** database.rs:24-51 [FileDB]: the content of the file [checkpoint], if there is one *)
Definition disk := option bytes.
Definition load_checkpoint (c : settings) (d : disk) : bytes :=
  match d with Some f => if (length f =? 32)%nat then f else default_checkpoint c | None => default_checkpoint c end.
Definition save_checkpoint (root : bytes) (d : disk) : disk := Some root.
(** [fs::write] empties the file and then writes: a crash may leave any beginning of it *)
Definition torn (root : bytes) (n : nat) : disk := Some (firstn n root).

(** A client: its settings, whether it asks the portal network, the checkpoint it starts from, the root from which it last
    synced, and whether its server holds the port. *)
Record client := { c_settings : settings; c_portal : bool; c_root : bytes; c_synced : option bytes; c_serving : bool }.
(** client.rs:258-305, node.rs:25-52 *)
Definition client_new (portal : bool) (c : settings) (d : disk) : outcome client :=
  match data_dir c with
  | None => Err
  | Some _ =>
      Ok {| c_settings := c; c_portal := portal; c_root := match checkpoint c with Some r => r | None => load_checkpoint c d end;
            c_synced := None; c_serving := false |}
  end.

(** How a sync ends: node.rs:54-64, consensus_client.rs:78-86, 211-256; a checkpoint is too old only if [strict]. *)
Inductive ends := Synced | TooOld | OtherError.
(** What the outside does during one start: how the first, the second and the third sync from a root end; what the given service and
    the list of services answer; whether a free port can be bound. *)
Record env := { e_sync : N -> bytes -> ends; e_fallback : option bytes; e_external : option bytes; e_bind : bool }.
Definition with_root (c : client) (r : bytes) : client :=
  {| c_settings := c_settings c; c_portal := c_portal c; c_root := r; c_synced := c_synced c; c_serving := c_serving c |}.
Definition synced (c : client) : client :=
  {| c_settings := c_settings c; c_portal := c_portal c; c_root := c_root c; c_synced := Some (c_root c); c_serving := c_serving c |}.
Definition serving (c : client) : client :=
  {| c_settings := c_settings c; c_portal := c_portal c; c_root := c_root c; c_synced := c_synced c; c_serving := true |}.
(** client.rs:367-420: a new client of the consensus layer from the checkpoint of a service; with the portal network its
    construction panics (consensus_client.rs:46-58, rpc/portal_rpc.rs:85-87).  The list: the client, the roots that were tried
    and how it ended. *)
Definition reboot (e : env) (i : N) (answer : option bytes) (c : client) : client * list (bytes * ends) * outcome unit :=
  match answer with
  | None => (c, [], Err)
  | Some r =>
      if c_portal c then (c, [], Panic)
      else match e_sync e i r with
           | Synced => (synced (with_root c r), [(r, Synced)], Ok tt)
           | x => (with_root c r, [(r, x)], Err)
           end
  end.
(** client.rs:307-348 [start] *)
Definition start (e : env) (c : client) : client * list (bytes * ends) * outcome unit :=
  match (match rpc_port (c_settings c) with
         | None => Ok c
         | Some p => if negb (p =? 0) && c_serving c then Err else if e_bind e then Ok (serving c) else Err
         end) with
  | Err => (c, [], Err)
  | Panic => (c, [], Panic)
  | Ok c =>
      match e_sync e 1 (c_root c) with
      | Synced => (synced c, [(c_root c, Synced)], Ok tt)
      | OtherError => (c, [(c_root c, OtherError)], Err)
      | TooOld =>
          let first := (c_root c, TooOld) in
          match reboot e 2 (match fallback (c_settings c) with Some _ => e_fallback e | None => None end) c with
          | (c, l, Ok _) => (c, first :: l, Ok tt)
          | (c, l, Panic) => (c, first :: l, Panic)
          | (c, l, Err) =>
              if load_external (c_settings c) then
                match reboot e 3 (e_external e) c with (c, l', o) => (c, first :: l ++ l', o) end
              else (c, first :: l, Err)
          end
      end
  end.
Fixpoint starts (es : list env) (c : client) : client * list (list (bytes * ends) * outcome unit) :=
  match es with
  | [] => (c, [])
  | e :: es => match start e c with (c, l, o) => let (c, r) := starts es c in (c, (l, o) :: r) end
  end.

(** consensus_client.rs:480-508: the seconds until the client asks for updates again *)
Definition slot_at (genesis now : N) : N := (now - genesis) / 12.
Definition pause (genesis now : N) : N := (slot_at genesis now + 1) * 12 + genesis - now + 8.
