(** The arguments of the command lines: /repo/bin/portal-bridge/src/types/mode.rs, cli.rs, handle.rs and main.rs, with bridge/e2hs.rs
    [BlockRange]; /repo/crates/utils/src/cli.rs; /repo/bin/trin/src/cli.rs; /repo/crates/ethportal-api/src/types/network.rs;
    /repo/bin/trin-execution/src/types/block_to_trace.rs.

    A string is its UTF-8 bytes.  Messages of errors are left out.  Not modelled: clap, URLs, socket addresses, paths, and
    the parser of 256-bit numbers (Capacity_Model has what is done with the number). *)
From Coq Require Import String Ascii.
From Verif Require Import Base Hex_Model Ping_Model Capacity_Model Rewards_Model Trie_Model.

(** A string literal *)
Definition lit (s : string) : bytes := map N_of_ascii (list_ascii_of_string s).
Definition plus : N := 43.
Definition comma : N := 44.
Definition colon : N := 58.

(** [u64::from_str]: [checked_mul] and [checked_add] *)
Fixpoint parse_digits (acc : N) (s : bytes) : option N :=
  match s with
  | [] => Some acc
  | c :: s =>
      if (48 <=? c) && (c <=? 57) then
        let acc := acc * 10 + (c - 48) in
        if acc <? 2 ^ 64 then parse_digits acc s else None
      else None
  end.
Definition parse_u64 (s : bytes) : option N :=
  match s with
  | [] => None
  | c :: r => if c =? plus then match r with [] => None | _ => parse_digits 0 r end else parse_digits 0 s
  end.

(** mode.rs:11-18 and 52-55 *)
Inductive bridge_mode := Latest | E2HS | EphemeralHistory | Single (first last : N) | Snapshot (n : N).
(** mode.rs:57-89 [ModeType::from_str]: [&s[..1]] panics inside a character of several bytes, and [expect] if a part is no number. *)
Definition mode_type (s : bytes) : outcome (N * N) :=
  match s with
  | [] => Err
  | c :: r =>
      if 128 <=? c then Panic
      else if c =? 114 then
        obind (all_ok (map (fun p => match parse_u64 p with Some n => Ok n | None => Panic end) (split dash r))) (fun l =>
        match l with
        | [first; last] => if last <? first then Err else Ok (first, last)
        | _ => Err
        end)
      else Err
  end.
(** mode.rs:21-50 [BridgeMode::from_str] *)
Definition mode_from_str (s : bytes) : outcome bridge_mode :=
  if beqb s (lit "latest") then Ok Latest
  else if beqb s (lit "e2hs") then Ok E2HS
  else if beqb s (lit "ephemeral-history") then Ok EphemeralHistory
  else match split_once colon s with
       | None => Err
       | Some (mode, val) =>
           if beqb mode (lit "single") then omap (fun x => Single (fst x) (snd x)) (mode_type val)
           else if beqb mode (lit "snapshot") then match parse_u64 val with Some n => Ok (Snapshot n) | None => Err end
           else Err
       end.

(** e2hs.rs:517-540 [BlockRange] *)
Record block_range := { range_start : N; range_stop : option N }.
Definition range_from_str (s : bytes) : outcome block_range :=
  match split dash s with
  | [a; b] =>
      match parse_u64 a with
      | None => Err
      | Some start =>
          match b with
          | [] => Ok {| range_start := start; range_stop := None |}
          | _ => match parse_u64 b with Some e => Ok {| range_start := start; range_stop := Some e |} | None => Err end
          end
      end
  | _ => Err
  end.

(** portal-bridge cli.rs:215-238 [BridgeId::from_str] *)
Definition id_from_str (s : bytes) : outcome (N * N) :=
  match split slash s with
  | [a; b] =>
      match parse_u64 a, parse_u64 b with
      | Some id, Some total =>
          if total <? id then Err
          else if (id =? 0) || (total =? 0) then Err
          else Ok (id, total)
      | _, _ => Err
      end
  | _ => Err
  end.

(** network.rs:75-91 [Subnetwork::from_str] and 95-106 [to_cli_arg] *)
Definition subnetwork_from_str (s : bytes) : outcome subnetwork :=
  if beqb s (lit "history") then Ok History
  else if beqb s (lit "beacon") then Ok Beacon
  else if beqb s (lit "legacy_history") then Ok LegacyHistory
  else if beqb s (lit "state") then Ok State
  else if beqb s (lit "canonical_indices") then Ok CanonicalIndices
  else if beqb s (lit "verkle_state") then Ok VerkleState
  else if beqb s (lit "transaction_gossip") then Ok TransactionGossip
  else if beqb s (lit "utp") then Ok Utp
  else Err.
Definition to_cli_arg (s : subnetwork) : bytes :=
  match s with
  | History => lit "history"
  | Beacon => lit "beacon"
  | LegacyHistory => lit "legacy_history"
  | State => lit "state"
  | CanonicalIndices => lit "canonical_indices"
  | VerkleState => lit "verkle_state"
  | TransactionGossip => lit "transaction_gossip"
  | Utp => lit "utp"
  end.
(** utils cli.rs:59-76 [subnetwork_parser] *)
Definition subnetwork_parser (s : bytes) : outcome (list subnetwork) :=
  obind (all_ok (map subnetwork_from_str (split comma s))) (fun l =>
  match l with
  | [] => Err
  | _ => if forallb is_active l then Ok l else Err
  end).
(** utils cli.rs:48-57 [network_parser] *)
Inductive network := Mainnet | Angelfood | Sepolia.
Definition network_parser (s : bytes) : outcome network :=
  if beqb s (lit "mainnet") then Ok Mainnet
  else if beqb s (lit "angelfood") then Ok Angelfood
  else if beqb s (lit "sepolia") then Ok Sepolia
  else Err.

(** alloy's [B256::from_str]: 64 hexadecimal digits, after "0x" or alone *)
Definition b256_from_str (s : bytes) : outcome bytes :=
  let digits := if beqb (firstn 2 s) (lit "0x") then skipn 2 s else s in
  if blen digits =? 64 then hex_decode_raw digits else Err.
(** utils cli.rs:38-46 [check_private_key_length] *)
Definition check_private_key_length (s : bytes) : outcome bytes := if blen s =? 66 then b256_from_str s else Err.
(** trin cli.rs:412-425 [check_trusted_block_root] *)
Definition check_trusted_block_root (s : bytes) : outcome bytes :=
  if negb (beqb (firstn 2 s) (lit "0x")) then Err
  else if blen s =? 66 then b256_from_str s else Err.

(** block_to_trace.rs:10-25, 50-69 *)
Inductive block_to_trace := TraceNone | TraceAll | TraceBlock (n : N).
Definition should_trace (t : block_to_trace) (n : N) : bool :=
  match t with TraceNone => false | TraceAll => true | TraceBlock b => b =? n end.
Definition trace_from_str (s : bytes) : outcome block_to_trace :=
  if beqb s (lit "none") then Ok TraceNone
  else if beqb s (lit "all") then Ok TraceAll
  else match split_once colon s with
       | Some (p, v) => if beqb p (lit "block") then match parse_u64 v with Some n => Ok (TraceBlock n) | None => Err end else Err
       | None => Err
       end.

(** utils cli.rs:12-36 *)
Inductive transport := HTTP | IPC.
Definition transport_from_str (s : bytes) : outcome transport :=
  if beqb s (lit "http") then Ok HTTP else if beqb s (lit "ipc") then Ok IPC else Err.

(** handle.rs:50-65 [subnetworks_flag] *)
Definition subnetworks_flag (s : subnetwork) : outcome (list subnetwork) :=
  match s with
  | Beacon => Ok [Beacon]
  | LegacyHistory => Ok [Beacon; LegacyHistory]
  | State => Ok [Beacon; LegacyHistory; State]
  | _ => Panic
  end.
(** What a bridge does *)
Inductive work :=
| FollowBeacon
| GossipFiles (r : block_range)
| FollowHead
| GossipState (first last : N)
| GossipSnapshot (n : N).
(** main.rs:33-175, with beacon.rs:99-108, state.rs:104-133 [launch] and 176-177 *)
Definition main (s : subnetwork) (m : bridge_mode) (r : option block_range) : outcome work :=
  obind (subnetworks_flag s) (fun _ =>
  match s with
  | Beacon => match m with Latest => Ok FollowBeacon | _ => Panic end
  | LegacyHistory =>
      match m with
      | E2HS => match r with Some r => Ok (GossipFiles r) | None => Panic end
      | EphemeralHistory => Ok FollowHead
      | _ => Panic
      end
  | State =>
      match m with
      | Single first last => obind (get_spec_block_number MERGE) (fun merge => if merge <? last then Panic else Ok (GossipState first last))
      | Snapshot n => if 0 <? n then Ok (GossipSnapshot n) else Panic
      | _ => Panic
      end
  | _ => Panic
  end).
(** portal-bridge cli.rs:31-62: the arguments are parsed first; an argument that is not given has its default. *)
Definition bridge_main (mode range subnet : option bytes) : outcome work :=
  obind (mode_from_str (match mode with Some s => s | None => lit "latest" end)) (fun m =>
  obind (match range with Some s => omap Some (range_from_str s) | None => Ok None end) (fun r =>
  obind (subnetwork_from_str (match subnet with Some s => s | None => lit "legacy_history" end)) (fun s => main s m r))).
