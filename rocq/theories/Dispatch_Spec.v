(** Vocabulary for the routing of requests and events. *)
From Verif Require Import Base Capacity_Model Args_Model.

(** The identifiers of the protocols (portal-network-specs): two bytes, 0x50 and one that depends on the network, or "utp" *)
Definition network_byte (n : network) : N := match n with Mainnet => 0 | _ => 64 end.
Definition identifier (n : network) (s : subnetwork) : option bytes :=
  match s with
  | State => Some [80; 10 + network_byte n]
  | LegacyHistory => Some [80; 11 + network_byte n]
  | Beacon => Some [80; 12 + network_byte n]
  | Utp => Some [117; 116; 112]
  | _ => None
  end.
(** The subnetworks that trin has *)
Definition served (s : subnetwork) : Prop := s = State \/ s = LegacyHistory \/ s = Beacon.
