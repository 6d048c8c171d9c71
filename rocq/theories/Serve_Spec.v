(** What the methods of a node and the places where it listens are to be. *)
From Coq Require Import String.
From Verif Require Import Base Capacity_Model Serve_Model.

(** How the names of the methods of a network start *)
Definition network_prefix (s : subnetwork) : option string :=
  match s with
  | Beacon => Some "portal_beacon"%string
  | LegacyHistory => Some "portal_legacyHistory"%string
  | State => Some "portal_state"%string
  | _ => None
  end.
(** All methods there are in the interfaces for users *)
Definition interface : list string :=
  beacon_methods ++ discv5_methods ++ eth_methods ++ history_methods ++ legacy_history_methods ++ state_methods ++ web3_methods.

(** and those of a module *)
Definition module_prefix (m : rpc_module) : string :=
  match m with
  | MBeacon => "portal_beacon" | MDiscv5 => "discv5_" | MEth => "eth_"
  | MLegacyHistory => "portal_legacyHistory" | MState => "portal_state" | MWeb3 => "web3_"
  end%string.
(** The methods of a selection of modules *)
Definition method_of (o : option selection) (n : string) : Prop :=
  exists s m, o = Some s /\ In m (modules_of s) /\ In n interface /\ prefix (module_prefix m) n = true.

Section Spec.
Context {C : Type}.
(** The network behind a module does not run *)
Definition lacks (ch : channels C) (m : rpc_module) : Prop :=
  match m with
  | MEth | MLegacyHistory => c_history ch = None
  | MBeacon => c_beacon ch = None
  | MState => c_state ch = None
  | _ => False
  end.
(** A selection without repetitions, whose networks run *)
Definition servable (ch : channels C) (s : selection) : Prop := NoDup (modules_of s) /\ forall m, In m (modules_of s) -> ~ lacks ch m.
(** Who answers a method on a node with the networks [l], where [chan s] leads to the task of [s] *)
Inductive answered (chan : subnetwork -> C) (l : list subnetwork) (name : string) : target C -> Prop :=
| by_discovery : prefix "discv5_" name = true -> answered chan l name ToDiscovery
| by_version : prefix "web3_" name = true -> answered chan l name ToVersion
| by_network s p : In s l -> network_prefix s = Some p -> prefix p name = true -> answered chan l name (ToNetwork (chan s))
| by_eth st : In LegacyHistory l -> (In State l -> st = Some (chan State)) -> (~ In State l -> st = None) ->
    prefix "eth_" name = true -> answered chan l name (ToEth (chan LegacyHistory) st).

(** A listener, but for what it serves *)
Definition kind (k : listener C) : place * bool * bool * option cors := (at_ k, accepts_http k, accepts_ws k, allows k).

Variable bind : list addr -> addr -> option addr.
Variable ipc_start : bytes -> bool.
Variable resolve : bytes -> option (list addr).
(** Where a node listens, with HTTP or WebSockets, for its configuration and what the system grants *)
Inductive opens (c : rpc_config) : list (place * bool * bool * option cors) -> Prop :=
| opens_ipc : web3_transport c = IPC -> ipc_start (web3_ipc_path c) = true -> opens c [(AtPath (web3_ipc_path c), false, false, None)]
| opens_http a r a' : web3_transport c = HTTP -> ws c = false -> resolve (web3_http_address c) = Some (a :: r) -> bind [] a = Some a' ->
    opens c [(AtAddr a', true, false, None)]
| opens_one a r a' : web3_transport c = HTTP -> ws c = true -> resolve (web3_http_address c) = Some (a :: r) ->
    a = mk_addr (V4 0) (ws_port c) -> bind [] a = Some a' -> opens c [(AtAddr a', true, true, None)]
| opens_two a r a' w : web3_transport c = HTTP -> ws c = true -> resolve (web3_http_address c) = Some (a :: r) ->
    a <> mk_addr (V4 0) (ws_port c) -> bind [] (mk_addr (V4 0) (ws_port c)) = Some w -> bind [w] a = Some a' ->
    opens c [(AtAddr a', true, false, None); (AtAddr w, false, true, None)].

(** A system that gives the address it was asked for, but for the port if that is 0 *)
Definition honest_bind : Prop := forall held a a', bind held a = Some a' -> host a' = host a /\ (port a <> 0 -> port a' = port a).
(** A system that does not give an address whose port is taken for all addresses *)
Definition exclusive_bind : Prop := forall held a b, In b held -> host b = V4 0 -> port b = port a -> bind held a = None.
End Spec.

(** The pieces of a text between commas *)
Inductive pieces : bytes -> list bytes -> Prop :=
| piece_last s : ~ In 44 s -> pieces s [s]
| piece_more s r l : ~ In 44 s -> pieces r l -> pieces (s ++ 44 :: r) (s :: l).
(** Whether a browser that shows a page from [origin] is allowed to ask *)
Definition allowed (c : cors) (origin : bytes) : Prop := match c with AnyOrigin => True | Origins l => In origin l end.
(** A star, with white space around it *)
Definition only_star (s : bytes) : Prop := exists a b, s = a ++ 42 :: b /\ Forall (fun c => blank c = true) (a ++ b).
