(** Starting a node and what its JSON-RPC servers offer: /repo/bin/trin/src/run.rs, /repo/crates/rpc/src/{lib,builder,rpc_server,cors}.rs and the
    names of methods in /repo/crates/ethportal-api/src/{beacon,discv5,eth,history,legacy_history,state,web3}.rs.

    Not modelled: discovery, uTP, the tasks of the networks and what their set-up does (whether it works is an argument), the servers of
    jsonrpsee and reth_ipc once they run, handlers of middleware, stopping.  What the system does when asked for an address, for the
    addresses of a host or for a socket file is an argument.  [merge] of jsonrpsee refuses a name that is registered already.
    The builder keeps the methods it made for a module; as they depend on nothing but the channels, the model makes them again. *)
From Coq Require Import String Ascii.
From Verif Require Import Base Ping_Model Trie_Model Args_Model Capacity_Model.

(** ** Names of methods *)
(** ethportal-api beacon.rs:27-162 *)
Definition beacon_methods : list string := ["portal_beaconRoutingTableInfo"; "portal_beaconRadius"; "portal_beaconAddEnr"; "portal_beaconGetEnr"; "portal_beaconDeleteEnr"; "portal_beaconLightClientStore"; "portal_beaconLookupEnr"; "portal_beaconPing"; "portal_beaconFinalizedStateRoot"; "portal_beaconFinalizedHeader"; "portal_beaconFinalityUpdate"; "portal_beaconOptimisticUpdate"; "portal_beaconFindNodes"; "portal_beaconRecursiveFindNodes"; "portal_beaconOptimisticStateRoot"; "portal_beaconFindContent"; "portal_beaconGetContent"; "portal_beaconTraceGetContent"; "portal_beaconPaginateLocalContentKeys"; "portal_beaconPutContent"; "portal_beaconOffer"; "portal_beaconTraceOffer"; "portal_beaconStore"; "portal_beaconLocalContent"]%string.
(** ethportal-api discv5.rs:12-56 *)
Definition discv5_methods : list string := ["discv5_nodeInfo"; "discv5_updateNodeInfo"; "discv5_routingTableInfo"; "discv5_addEnr"; "discv5_getEnr"; "discv5_deleteEnr"; "discv5_lookupEnr"; "discv5_recursiveFindNodes"; "discv5_talkReq"; "discv5_ping"; "discv5_findNode"]%string.
(** ethportal-api eth.rs:7-37 *)
Definition eth_methods : list string := ["eth_chainId"; "eth_getBlockByNumber"; "eth_getBlockByHash"; "eth_getBalance"; "eth_getCode"; "eth_getStorageAt"; "eth_call"]%string.
(** ethportal-api legacy_history.rs:19-132 *)
Definition legacy_history_methods : list string := ["portal_legacyHistoryRoutingTableInfo"; "portal_legacyHistoryRadius"; "portal_legacyHistoryAddEnr"; "portal_legacyHistoryGetEnr"; "portal_legacyHistoryDeleteEnr"; "portal_legacyHistoryLookupEnr"; "portal_legacyHistoryPing"; "portal_legacyHistoryFindNodes"; "portal_legacyHistoryRecursiveFindNodes"; "portal_legacyHistoryFindContent"; "portal_legacyHistoryGetContent"; "portal_legacyHistoryTraceGetContent"; "portal_legacyHistoryPaginateLocalContentKeys"; "portal_legacyHistoryPutContent"; "portal_legacyHistoryOffer"; "portal_legacyHistoryTraceOffer"; "portal_legacyHistoryStore"; "portal_legacyHistoryLocalContent"]%string.
(** ethportal-api state.rs:20-130 *)
Definition state_methods : list string := ["portal_stateRoutingTableInfo"; "portal_stateRadius"; "portal_stateAddEnr"; "portal_stateGetEnr"; "portal_stateDeleteEnr"; "portal_stateLookupEnr"; "portal_statePing"; "portal_stateFindNodes"; "portal_stateRecursiveFindNodes"; "portal_stateFindContent"; "portal_stateGetContent"; "portal_stateTraceGetContent"; "portal_statePaginateLocalContentKeys"; "portal_statePutContent"; "portal_stateOffer"; "portal_stateTraceOffer"; "portal_stateStore"; "portal_stateLocalContent"]%string.
(** ethportal-api web3.rs:3-6 *)
Definition web3_methods : list string := ["web3_clientVersion"]%string.
(** ethportal-api history.rs:19-124 *)
Definition history_methods : list string := ["portal_historyRoutingTableInfo"; "portal_historyRadius"; "portal_historyAddEnr"; "portal_historyGetEnr"; "portal_historyDeleteEnr"; "portal_historyLookupEnr"; "portal_historyPing"; "portal_historyFindNodes"; "portal_historyRecursiveFindNodes"; "portal_historyFindContent"; "portal_historyGetContent"; "portal_historyTraceGetContent"; "portal_historyPutContent"; "portal_historyOffer"; "portal_historyTraceOffer"; "portal_historyStore"; "portal_historyLocalContent"]%string.

(** builder.rs:27-45 *)
Inductive rpc_module := MBeacon | MDiscv5 | MEth | MLegacyHistory | MState | MWeb3.
Definition rpc_module_eqb (a b : rpc_module) : bool :=
  match a, b with
  | MBeacon, MBeacon | MDiscv5, MDiscv5 | MEth, MEth | MLegacyHistory, MLegacyHistory | MState, MState | MWeb3, MWeb3 => true
  | _, _ => false
  end.
(** builder.rs:150-158 *)
Inductive selection := SAll | SStandard | Selected (l : list rpc_module).
(** builder.rs:163-176 and 200-215: the order of [VARIANTS] is that of the declaration *)
Definition modules_of (s : selection) : list rpc_module :=
  match s with
  | SAll => [MBeacon; MDiscv5; MEth; MLegacyHistory; MState; MWeb3]
  | SStandard => [MBeacon; MDiscv5; MEth; MLegacyHistory; MWeb3]
  | Selected l => l
  end.
(** builder.rs:192-197 *)
Definition is_empty (s : selection) : bool := match s with Selected [] => true | _ => false end.
Definition has (l : list rpc_module) (m : rpc_module) : bool := existsb (rpc_module_eqb m) l.
(** builder.rs:218-230 [are_identical], equality of two [HashSet]s *)
Definition are_identical (http ws : option selection) : bool :=
  match http, ws with
  | Some h, Some w => forallb (has (modules_of w)) (modules_of h) && forallb (has (modules_of h)) (modules_of w)
  | Some h, None => is_empty h
  | None, Some w => is_empty w
  | None, None => true
  end.
(** builder.rs:60-69 *)
Record transports := mk_transports { t_http : option selection; t_ws : option selection; t_ipc : option selection }.

(** ** Addresses and CORS *)
Inductive ip := V4 (a : N) | V6 (a : N).
Record addr := mk_addr { host : ip; port : N }.
Definition ip_eqb (a b : ip) : bool := match a, b with V4 x, V4 y | V6 x, V6 y => x =? y | _, _ => false end.
Definition addr_eqb (a b : addr) : bool := ip_eqb (host a) (host b) && (port a =? port b).
(** [Ipv4Addr::UNSPECIFIED] *)
Definition unspecified : ip := V4 0.
(** portalnet constants.rs:10-13 *)
Definition default_http_port : N := 8545.
Definition default_ws_port : N := 8546.
Definition default_ipc_path : bytes := lit "/tmp/trin-jsonrpc.ipc".

(** [str::trim], of ASCII's white space *)
Definition blank (c : N) : bool := (c =? 32) || ((9 <=? c) && (c <=? 13)).
Fixpoint drop_blank (s : bytes) : bytes := match s with c :: r => if blank c then drop_blank r else s | [] => [] end.
Definition trim_text (s : bytes) : bytes := rev (drop_blank (rev (drop_blank s))).
Inductive cors := AnyOrigin | Origins (l : list bytes).
Section Cors.
(** whether a text is the value of a header: http's [HeaderValue::from_str] *)
Variable header_value : bytes -> bool.
(** cors.rs:14-47 [create_cors_layer]; the methods and headers are the same in both cases *)
Definition create_cors_layer (s : bytes) : outcome cors :=
  if beqb (trim_text s) (lit "*") then Ok AnyOrigin
  else
    let l := split comma s in
    if existsb (fun o => beqb o (lit "*")) l then Err
    else if forallb header_value l then Ok (Origins l) else Err.

(** ** The servers *)
Section Serve.
(** [C]: the channels to the tasks of the networks *)
Context {C : Type}.
(** Who answers a method: builder.rs:402-450 *)
Inductive target := ToDiscovery | ToVersion | ToNetwork (c : C) | ToEth (history : C) (state : option C).
Record channels := mk_channels { c_history : option C; c_beacon : option C; c_state : option C }.
(** builder.rs:402-450 [portal_methods], of one module *)
Definition module_methods (ch : channels) (m : rpc_module) : outcome (list (string * target)) :=
  let all (l : list string) (t : target) := map (fun n => (n, t)) l in
  match m with
  | MDiscv5 => Ok (all discv5_methods ToDiscovery)
  | MEth => match c_history ch with Some h => Ok (all eth_methods (ToEth h (c_state ch))) | None => Panic end
  | MLegacyHistory => match c_history ch with Some h => Ok (all legacy_history_methods (ToNetwork h)) | None => Panic end
  | MBeacon => match c_beacon ch with Some b => Ok (all beacon_methods (ToNetwork b)) | None => Panic end
  | MState => match c_state ch with Some s => Ok (all state_methods (ToNetwork s)) | None => Panic end
  | MWeb3 => Ok (all web3_methods ToVersion)
  end.
(** [Methods::merge] of jsonrpsee with the [expect] of builder.rs:369 *)
Definition merge (acc l : list (string * target)) : outcome (list (string * target)) :=
  if existsb (fun p => existsb (fun q => String.eqb (fst p) (fst q)) acc) l then Panic else Ok (acc ++ l).
Fixpoint merge_all (acc : list (string * target)) (l : list (list (string * target))) : outcome (list (string * target)) :=
  match l with
  | [] => Ok acc
  | x :: l => obind (merge acc x) (fun acc => merge_all acc l)
  end.
(** builder.rs:365-372 [module_for] *)
Definition module_for (ch : channels) (s : selection) : outcome (list (string * target)) :=
  obind (all_ok (map (module_methods ch) (modules_of s))) (merge_all []).
(** builder.rs:375-379 [maybe_module] *)
Definition maybe_module (ch : channels) (s : option selection) : outcome (option (list (string * target))) :=
  match s with None => Ok None | Some s => omap Some (module_for ch s) end.
Record installed := mk_installed { i_config : transports; i_http : option (list (string * target)); i_ws : option (list (string * target));
  i_ipc : option (list (string * target)) }.
(** builder.rs:383-397 [build]; with nothing configured all is empty as well *)
Definition build_modules (ch : channels) (t : transports) : outcome installed :=
  obind (maybe_module ch (t_http t)) (fun h =>
  obind (maybe_module ch (t_ws t)) (fun w =>
  obind (maybe_module ch (t_ipc t)) (fun i => Ok (mk_installed t h w i)))).

(** rpc_server.rs:228-245: whether a server is configured, for its builder *)
Record server_config := mk_server_config { http_on : bool; http_cors : option bytes; http_addr : option addr;
  ws_on : bool; ws_cors : option bytes; ws_addr : option addr; ipc_on : bool; ipc_endpoint : option bytes }.
(** A server that has its address and does not serve yet: rpc_server.rs:570-575 *)
Record bound := mk_bound { b_addr : addr; b_http : bool; b_ws : bool; b_cors : option cors }.
(** rpc_server.rs:500-518 *)
Inductive ws_http := SamePort (b : bound) | DifferentPort (http ws : option bound).
(** What listens in the end *)
Inductive place := AtAddr (a : addr) | AtPath (p : bytes).
Record listener := mk_listener { at_ : place; accepts_http : bool; accepts_ws : bool; allows : option cors; serves : list (string * target) }.
(** rpc_server.rs:117-125: the handle, with what it holds open *)
Record handle := mk_handle { http_local : option addr; ws_local : option addr; listeners : list listener }.

(** The system: [bind] is given what this node has bound before; [None] is an error *)
Variable bind : list addr -> addr -> option addr.
Variable ipc_start : bytes -> bool.
Variable resolve : bytes -> option (list addr).

(** rpc_server.rs:587-608 [WsHttpServerKind::build] and 610-616 *)
Definition build_server (held : list addr) (a : addr) (c : option bytes) (http ws : bool) : outcome bound :=
  obind (match c with None => Ok None | Some c => omap Some (create_cors_layer c) end) (fun c =>
  match bind held a with None => Err | Some a => Ok (mk_bound a http ws c) end).
Definition opt_addr_eqb (a b : option addr) : bool :=
  match a, b with Some a, Some b => addr_eqb a b | None, None => true | _, _ => false end.
(** rpc_server.rs:378-476 [build_ws_http] *)
Definition build_ws_http (c : server_config) : outcome (option addr * option addr * ws_http) :=
  let http_socket_addr := match http_addr c with Some a => a | None => mk_addr unspecified default_http_port end in
  if opt_addr_eqb (http_addr c) (ws_addr c) && http_on c && ws_on c then
    obind (match ws_cors c, http_cors c with
           | Some w, Some h => if negb (beqb (trim_text w) (trim_text h)) then Err else Ok (Some w)
           | None, h => Ok h
           | w, None => Ok w
           end) (fun co =>
    obind (build_server [] http_socket_addr co true true) (fun b =>
    Ok (Some (b_addr b), Some (b_addr b), SamePort b)))
  else
    obind (if ws_on c then
             let a := match ws_addr c with Some a => a | None => mk_addr unspecified default_ws_port end in
             omap Some (build_server [] a (ws_cors c) false true)
           else Ok None) (fun w =>
    obind (if http_on c then
             omap Some (build_server (match w with Some w => [b_addr w] | None => [] end) http_socket_addr (http_cors c) true false)
           else Ok None) (fun h =>
    Ok (option_map b_addr h, option_map b_addr w, DifferentPort h w))).
Definition listen (b : bound) (m : list (string * target)) : listener :=
  mk_listener (AtAddr (b_addr b)) (b_http b) (b_ws b) (b_cors b) m.
Definition both {A B} (a : option A) (b : option B) : option (A * B) := match a, b with Some a, Some b => Some (a, b) | _, _ => None end.
Definition started (x : option (bound * list (string * target))) : list listener :=
  match x with Some (b, m) => [listen b m] | None => [] end.
(** rpc_server.rs:522-557 [WsHttpServers::start] *)
Definition start_ws_http (s : ws_http) (i : installed) : outcome (list listener) :=
  match s with
  | SamePort b =>
      if negb (are_identical (t_http (i_config i)) (t_ws (i_config i))) then Err
      else Ok (started (both (Some b) (match i_http i with Some m => Some m | None => i_ws i end)))
  | DifferentPort h w => Ok (started (both h (i_http i)) ++ started (both w (i_ws i)))
  end.
(** rpc_server.rs:368-373, 482-497 and 67-100: [RpcServerConfig::start], [build] and [RpcServer::start] *)
Definition start_servers (c : server_config) (i : installed) : outcome handle :=
  obind (build_ws_http c) (fun r =>
  let '(hl, wl, s) := r in
  obind (start_ws_http s i) (fun l =>
  match (if ipc_on c then Some (match ipc_endpoint c with Some p => p | None => default_ipc_path end) else None), i_ipc i with
  | Some p, Some m => if ipc_start p then Ok (mk_handle hl wl (l ++ [mk_listener (AtPath p) false false None m])) else Err
  | _, _ => Ok (mk_handle hl wl l)
  end)).

(** config.rs:8-14 *)
Inductive transport := IPC | HTTP.
Record rpc_config := mk_rpc_config { web3_transport : transport; web3_ipc_path : bytes; web3_http_address : bytes; ws : bool; ws_port : N }.
(** lib.rs:59-74 *)
Fixpoint network_modules (l : list subnetwork) : outcome (list rpc_module) :=
  match l with
  | [] => Ok []
  | s :: l =>
      obind (match s with
             | LegacyHistory => Ok [MLegacyHistory; MEth]
             | State => Ok [MState]
             | Beacon => Ok [MBeacon]
             | _ => Err
             end) (fun m => omap (app m) (network_modules l))
  end.
(** lib.rs:51-129 [launch_jsonrpc_server]: [expect] and [[0]] panic if the URL gives no address; a path is taken to be UTF-8 *)
Definition launch (c : rpc_config) (l : list subnetwork) (ch : channels) : outcome handle :=
  obind (omap (app [MDiscv5; MWeb3]) (network_modules l)) (fun mods =>
  match web3_transport c with
  | IPC =>
      obind (build_modules ch (mk_transports None None (Some (Selected mods)))) (fun i =>
      start_servers (mk_server_config false None None false None None true (Some (web3_ipc_path c))) i)
  | HTTP =>
      obind (build_modules ch (mk_transports (Some (Selected mods)) (if ws c then Some (Selected mods) else None) None)) (fun i =>
      match resolve (web3_http_address c) with
      | Some (a :: _) =>
          start_servers (mk_server_config true None (Some a)
            (ws c) None (if ws c then Some (mk_addr unspecified (ws_port c)) else None) false None) i
      | _ => Panic
      end)
  end).

(** ** The node *)
(** What the set-up of a network gives: the channel to its task, or an error *)
Variable initialize : subnetwork -> option C.
Definition set_up (l : list subnetwork) (s : subnetwork) : outcome (option C) :=
  if enabled l s then match initialize s with Some c => Ok (Some c) | None => Err end else Ok None.
(** run.rs:96-256 [run_trin_internal], from the set-up of the networks on: the networks that run, and the handle *)
Definition run_node (c : option rpc_config) (l : list subnetwork) : outcome (channels * option handle) :=
  obind (set_up l State) (fun st =>
  obind (set_up l Beacon) (fun be =>
  obind (set_up l LegacyHistory) (fun hi =>
  let ch := mk_channels hi be st in
  match c with
  | None => Ok (ch, None)
  | Some c => omap (fun h => (ch, Some h)) (launch c l ch)
  end))).
End Serve.
End Cors.
Arguments target : clear implicits.
Arguments channels : clear implicits.
Arguments listener : clear implicits.
Arguments handle : clear implicits.
Arguments installed : clear implicits.
