(** How a storage limit is split: /repo/crates/storage/src/config.rs.  Not modelled: opening
    the SQL connection. *)
From Verif Require Import Base.

(** /repo/crates/ethportal-api/src/types/network.rs:49-58 *)
Inductive subnetwork := History | Beacon | LegacyHistory | State | CanonicalIndices | VerkleState | TransactionGossip | Utp.
Definition subnetwork_eqb (a b : subnetwork) : bool :=
  match a, b with
  | Beacon, Beacon | History, History | LegacyHistory, LegacyHistory | CanonicalIndices, CanonicalIndices
  | VerkleState, VerkleState | TransactionGossip, TransactionGossip | State, State | Utp, Utp => true
  | _, _ => false
  end.

(** config.rs:13-24 *)
Inductive capacity_config :=
| Combined (total_mb : N) (subnetworks : list subnetwork)
| Specific (beacon_mb legacy_history_mb state_mb : option N).

(** config.rs:35-37, 110-117 [get_capacity_weight]: [None] is the [unreachable!] panic. *)
Definition weight (s : subnetwork) : option N :=
  match s with LegacyHistory => Some 1 | State => Some 1 | Beacon => Some 0 | _ => None end.
Fixpoint total_weight (l : list subnetwork) : option N :=
  match l with
  | [] => Some 0
  | s :: l' => match weight s, total_weight l' with Some a, Some b => Some (a + b) | _, _ => None end
  end.

(** config.rs:54-108 [create], the capacity it computes; [u64] products do not overflow for
    a [u32] number of megabytes. *)
Definition capacity_of (c : capacity_config) (s : subnetwork) : outcome N :=
  match c with
  | Combined total_mb subnetworks =>
      if negb (existsb (subnetwork_eqb s) subnetworks) then Err
      else
        match weight s, total_weight subnetworks with
        | Some w, Some total => if total =? 0 then Ok 0 else Ok (1000000 * total_mb * w / total)
        | _, _ => Panic
        end
  | Specific beacon_mb legacy_history_mb state_mb =>
      match (match s with Beacon => beacon_mb | LegacyHistory => legacy_history_mb | State => state_mb | _ => None end) with
      | Some mb => Ok (mb * 1000000)
      | None => Err
      end
  end.

(** network.rs:110-121 [is_active] and 124-130 [dependencies] *)
Definition is_active (s : subnetwork) : bool :=
  match s with Beacon | LegacyHistory | State => true | _ => false end.
Definition dependencies (s : subnetwork) : list subnetwork :=
  match s with LegacyHistory => [Beacon] | State => [LegacyHistory; Beacon] | _ => [] end.
Definition enabled (l : list subnetwork) (s : subnetwork) : bool := existsb (subnetwork_eqb s) l.

(** The command line: /repo/bin/trin/src/cli.rs:126-169, the values after parsing. *)
Record cli := mk_cli { subnetworks : list subnetwork; storage_total : option N;
  storage_beacon : option N; storage_legacy_history : option N; storage_state : option N }.
(** /repo/crates/utils/src/cli.rs:59-76 [subnetwork_parser] on the parsed names and
    bin/trin/src/cli.rs:304-366, the checks of [new_from] on subnetworks and storage. *)
Definition flag_matches (c : cli) (s : subnetwork) (flag : option N) : bool :=
  match flag with Some _ => enabled (subnetworks c) s | None => negb (enabled (subnetworks c) s) end.
Definition cli_accepted (c : cli) : bool :=
  match subnetworks c with [] => false | _ => true end &&
  forallb is_active (subnetworks c) &&
  forallb (fun s => forallb (enabled (subnetworks c)) (dependencies s)) (subnetworks c) &&
  match storage_total c with
  | Some _ =>
      match storage_beacon c, storage_legacy_history c, storage_state c with None, None, None => true | _, _, _ => false end
  | None =>
      flag_matches c Beacon (storage_beacon c) && flag_matches c LegacyHistory (storage_legacy_history c) &&
      flag_matches c State (storage_state c)
  end.
(** bin/trin/src/cli.rs:371-383 [storage_capacity_config] *)
Definition storage_capacity_config (c : cli) : capacity_config :=
  match storage_total c with
  | Some mb => Combined mb (subnetworks c)
  | None => Specific (storage_beacon c) (storage_legacy_history c) (storage_state c)
  end.

(** utils/src/cli.rs:78-103 [max_radius_parser] on the parsed percentage. *)
Definition max_distance : N := 2 ^ 256 - 1.
Definition max_radius_of (percentage : N) : option N :=
  if 100 <? percentage then None
  else if percentage =? 100 then Some max_distance
  else Some (max_distance / 100 * percentage).
