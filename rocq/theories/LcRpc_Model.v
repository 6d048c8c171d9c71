(** Where the light client gets its data: /repo/crates/light-client/src/consensus/rpc/{mod,nimbus_rpc,portal_rpc}.rs, consensus/types.rs:72-81,
    consensus/consensus_client.rs:78-86, rpc.rs and utils.rs:5-7.

    The provider is an argument, [ask]: what comes back for a URL after all URLs asked for before; [None] is a request that fails, be it for a
    text that is no URL.  So is the network, [find].  Reading JSON text, reading the values in JSON and decoding contents are arguments too.
    Left out: redirections, timeouts, the server of rpc.rs but for what it answers. *)
From Coq Require Import String Ascii.
From Verif Require Import Base Hex_Model Args_Model Header_Model LegacyHistory_Model Providers_Model.

(** rpc/mod.rs:13-24: what one can ask for *)
Inductive lc_query := QBootstrap (root : bytes) | QUpdates (period count : N) | QFinality | QOptimistic | QSpec.
(** constants.rs:4 *)
Definition max_updates : N := 128.
(** nimbus_rpc.rs:32-36, 53-57, 73, 85, 97; [Display] of a root is all its bytes with 0x *)
Definition nimbus_path (q : lc_query) : bytes :=
  match q with
  | QBootstrap root => lit "/eth/v1/beacon/light_client/bootstrap/" ++ hex_encode root
  | QUpdates period count => lit "/eth/v1/beacon/light_client/updates?start_period=" ++ decimal period ++ lit "&count=" ++ decimal (N.min count max_updates)
  | QFinality => lit "/eth/v1/beacon/light_client/finality_update"
  | QOptimistic => lit "/eth/v1/beacon/light_client/optimistic_update"
  | QSpec => lit "/eth/v1/config/spec"
  end.
(** A reply; [reply_body]: [None] if it cannot be read to the end *)
Record reply := { reply_status : N; reply_body : option bytes }.

(** serde's derived reading of a struct with one member, without a default; an array of one element is read too. *)
Definition only_member {T} (k : string) (dec : json -> option T) (j : json) : option T :=
  match j with
  | JObj l => match named (lit k) l with [d] => dec d | _ => None end
  | JArr [d] => dec d
  | _ => None
  end.
Fixpoint each {S T} (f : S -> option T) (l : list S) : option (list T) :=
  match l with
  | [] => Some []
  | x :: l => match f x, each f l with Some y, Some r => Some (y :: r) | _, _ => None end
  end.
(** nimbus_rpc.rs:112-117 *)
Definition read_updates {T} (dec : json -> option T) (j : json) : option (list T) :=
  match j with JArr l => each (only_member "data" dec) l | _ => None end.
(** types.rs:72-81 *)
Definition u64_deserialize (j : json) : option N := match j with JStr s => parse_u64 s | _ => None end.
(** nimbus_rpc.rs:134-143 *)
Definition read_spec : json -> option N := only_member "data" (only_member "DEPOSIT_NETWORK_ID" u64_deserialize).

Section Nimbus.
Variable ask : list bytes -> bytes -> option reply.
Variable parse : bytes -> option json.
(** The provider's address as configured, [rpc]; the URLs asked for so far, [h] *)
Definition nimbus {T} (read : json -> option T) (rpc : bytes) (q : lc_query) (h : list bytes) : list bytes * outcome T :=
  let u := rpc ++ nimbus_path q in
  (h ++ [u],
   match ask h u with
   | None => Err
   | Some r => match reply_body r with
               | None => Err
               | Some b => match parse b with None => Err | Some j => of_option (read j) end
               end
   end).
(** nimbus_rpc.rs:31-49 *)
Definition nimbus_bootstrap {T} (dec : json -> option T) (rpc root : bytes) := nimbus (only_member "data" dec) rpc (QBootstrap root).
(** nimbus_rpc.rs:51-70 *)
Definition nimbus_updates {T} (dec : json -> option T) (rpc : bytes) (period count : N) := nimbus (read_updates dec) rpc (QUpdates period count).
(** nimbus_rpc.rs:72-82, 84-94 *)
Definition nimbus_finality {T} (dec : json -> option T) (rpc : bytes) := nimbus (only_member "data" dec) rpc QFinality.
Definition nimbus_optimistic {T} (dec : json -> option T) (rpc : bytes) := nimbus (only_member "data" dec) rpc QOptimistic.
(** nimbus_rpc.rs:96-106 *)
Definition nimbus_chain_id (rpc : bytes) := nimbus read_spec rpc QSpec.
(** consensus_client.rs:78-86 [check_rpc] *)
Definition nimbus_check (rpc : bytes) (chain : N) (h : list bytes) : list bytes * outcome unit :=
  let (h, o) := nimbus_chain_id rpc h in (h, obind o (fun c => if negb (c =? chain) then Err else Ok tt)).
End Nimbus.

(** Contents of the beacon network, decoded; [None]: of another fork than Electra *)
Inductive content_value (B U F O : Type) :=
| VBootstrap (b : option B) | VUpdates (l : list (option U)) | VFinality (f : option F) | VOptimistic (o : option O) | VOther.
Arguments VBootstrap {B U F O}. Arguments VUpdates {B U F O}. Arguments VFinality {B U F O}. Arguments VOptimistic {B U F O}. Arguments VOther {B U F O}.
(** ethportal-api content_key/beacon.rs: the keys that are asked for *)
Inductive lc_key := KBootstrap (root : bytes) | KUpdates (start count : N) | KFinality (slot : N) | KOptimistic (slot : N).
(** portal_rpc.rs:28 and 193-199 [expected_current_slot], in whole seconds; a clock before the genesis panics *)
Definition genesis : N := 1606824023.
Definition expected_slot (now : N) : outcome N := if now <? genesis then Panic else Ok ((now - genesis) / 12).

Section Portal.
Context {B U F O : Type}.
(** [None]: not found, or the overlay is gone *)
Variable find : list lc_key -> lc_key -> option bytes.
Variable decode : lc_key -> bytes -> option (content_value B U F O).
(** portal_rpc.rs:40-80 [send_find_content] *)
Definition send_find_content (k : lc_key) (h : list lc_key) : list lc_key * outcome (content_value B U F O) :=
  (h ++ [k], match find h k with None => Err | Some b => of_option (decode k b) end).
(** portal_rpc.rs:89-106 *)
Definition portal_bootstrap (root : bytes) (h : list lc_key) : list lc_key * outcome B :=
  let (h, o) := send_find_content (KBootstrap root) h in
  (h, obind o (fun v => match v with VBootstrap (Some b) => Ok b | _ => Err end)).
(** portal_rpc.rs:108-135; [count] is a u8 *)
Definition portal_updates (period count : N) (h : list lc_key) : list lc_key * outcome (list U) :=
  let (h, o) := send_find_content (KUpdates period count) h in
  (h, obind o (fun v => match v with VUpdates l => of_option (each (fun x => x) l) | _ => Err end)).
(** portal_rpc.rs:137-157 *)
Definition portal_finality (h : list lc_key) : list lc_key * outcome F :=
  let (h, o) := send_find_content (KFinality 0) h in
  (h, obind o (fun v => match v with VFinality (Some f) => Ok f | _ => Err end)).
(** portal_rpc.rs:159-183; [now]: seconds since 1970 *)
Definition portal_optimistic (now : N) (h : list lc_key) : list lc_key * outcome O :=
  match expected_slot now with
  | Ok slot =>
      let (h, o) := send_find_content (KOptimistic slot) h in
      (h, obind o (fun v => match v with VOptimistic (Some x) => Ok x | _ => Err end))
  | Err => (h, Err)
  | Panic => (h, Panic)
  end.
End Portal.
(** portal_rpc.rs:185-187 and consensus_client.rs:78-86 *)
Definition portal_check (chain : N) : outcome unit := if negb (1 =? chain) then Err else Ok tt.

(** utils.rs:5-7 [u64_to_hex_string] and rpc.rs:63-79: what the server of the light client says of its chain *)
Definition eth_chain_id (chain : N) : bytes := lit "0x" ++ radix 64 16 hex_digit chain.
Definition net_version (chain : N) : bytes := decimal chain.
