(** Model of /repo/crates/portalnet/src/utils/db.rs, of /repo/crates/utils/src/dir.rs [setup_data_dir] and of
    /repo/crates/light-client/src/database.rs: where a node keeps its data, its private key and its checkpoint.
    Paths are lists of names.  A process may stop at any moment while it writes a file: [std::fs::write] creates or empties
    the file and then writes it from front to back.  Outside the model: the elliptic curve ([parse]: the 32 bytes of the key
    that [secp256k1_from_bytes] reads, if it does; [node_id]: the node id of a key), random numbers, errors of the file
    system. *)
From Coq Require Import String Ascii.
From Verif Require Import Base Hex_Model Args_Model.

Definition path := list bytes.

(** dir.rs:16-33 [setup_data_dir] and 58-63 [create_temp_dir]; [temp] is the directory of the operating system for temporary
    files, [default] its directory for applications, [random] the name that [TempDir::new_in] makes up *)
Definition setup_data_dir (app : bytes) (temp : path) (default : option path) (random : bytes) (data_dir : option path) (ephemeral : bool) : outcome path :=
  if ephemeral then Ok (match data_dir with Some d => d | None => temp end ++ [app; random])
  else match data_dir with
       | Some d => Ok d
       | None => of_option default
       end.
(** version.rs [APP_NAME]; db.rs:19-28 [configure_trin_data_dir]; [env]: the variable TRIN_DATA_PATH *)
Definition app_name : bytes := lit "trin".
Definition configure_trin_data_dir (temp : path) (default : option path) (random : bytes) (env data_dir : option path) (ephemeral : bool) : outcome path :=
  match data_dir, env with
  | Some _, Some _ => Err
  | _, _ => setup_data_dir app_name temp default random (match data_dir with Some d => Some d | None => env end) ephemeral
  end.

(** network.rs:24-32 *)
Definition network_name (n : network) : bytes :=
  match n with Mainnet => lit "mainnet" | Angelfood => lit "angelfood" | Sepolia => lit "sepolia" end.
(** db.rs:51-65 [get_node_data_dir]: the name of the directory *)
Definition node_dir (n : network) (id : bytes) : bytes :=
  match n with Mainnet => [] | _ => network_name n ++ lit "_" end ++ lit "trin_" ++ firstn 8 (hex_chars hex_digit id).

(** A directory for the data of nodes: the file unsafe_private_key.hex, if there is one, and the directories in it *)
Record data_dir := { key_file : option bytes; dirs : list bytes }.
(** Where a process stops *)
Inductive stop :=
| Never
| Before              (* before it creates the file *)
| Within (n : nat)    (* after [n] bytes of the file *)
| After.              (* after the file, before the directory is created *)
Inductive result := Started (dir : bytes) (key : bytes) | Refused | Stopped.

Section Node.
Context (parse : bytes -> option bytes) (node_id : bytes -> bytes).

(** db.rs:70-80 [get_application_private_key]; [fresh]: the key that is generated if one is needed.
    The contents of the file after it, and the key; [None]: the process stopped. *)
Definition read_key (f : bytes) : outcome bytes := obind (hex_decode f) (fun k => of_option (parse k)).
Definition get_application_private_key (fresh : bytes) (s : stop) (file : option bytes) : option bytes * option (outcome bytes) :=
  match file with
  | Some f => (file, Some (read_key f))
  | None =>
      let f := hex_encode fresh in
      match s with
      | Before => (None, None)
      | Within n => (Some (firstn n f), None)
      | After => (Some f, None)
      | Never => (Some f, Some (read_key f))
      end
  end.
(** fs::create_dir_all *)
Definition mkdir (d : bytes) (l : list bytes) : list bytes := if existsb (beqb d) l then l else l ++ [d].

(** db.rs:33-48 [configure_node_data_dir].  [pk.encode()] of a key that was parsed are its 32 bytes. *)
Definition configure_node_data_dir (given : option bytes) (fresh : bytes) (n : network) (s : stop) (d : data_dir) : data_dir * result :=
  let '(file, r) :=
    match given with
    | Some k => (key_file d, Some (of_option (parse k)))
    | None => get_application_private_key fresh s (key_file d)
    end in
  match r with
  | None => ({| key_file := file; dirs := dirs d |}, Stopped)
  | Some (Ok k) =>
      match s with
      | Never => let name := node_dir n (node_id k) in ({| key_file := file; dirs := mkdir name (dirs d) |}, Started name k)
      | _ => ({| key_file := file; dirs := dirs d |}, Stopped)
      end
  | Some _ => ({| key_file := file; dirs := dirs d |}, Refused)
  end.

(** One start of a node: the key given with --unsafe-private-key, the key that would be generated, the network *)
Record start := { given : option bytes; fresh : bytes; on : network; stops : stop }.
Definition step (d : data_dir) (s : start) : data_dir * result := configure_node_data_dir (given s) (fresh s) (on s) (stops s) d.
Fixpoint run (d : data_dir) (l : list start) : data_dir * list result :=
  match l with
  | [] => (d, [])
  | s :: l => let '(d, r) := step d s in let '(d, rs) := run d l in (d, r :: rs)
  end.
End Node.

(** ** The checkpoint of the light client: database.rs:16-46 [FileDB] *)
(** 34-38 [save_checkpoint]; [upto]: the process stops after so many bytes *)
Definition save_checkpoint (c : bytes) (upto : option nat) (file : option bytes) : option bytes :=
  match upto with None => Some c | Some n => Some (firstn n c) end.
(** 40-45 [load_checkpoint]; [B256::try_from] wants 32 bytes *)
Definition load_checkpoint (default : bytes) (file : option bytes) : bytes :=
  match file with
  | Some b => if blen b =? 32 then b else default
  | None => default
  end.
