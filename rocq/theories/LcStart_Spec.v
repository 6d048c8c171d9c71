(** Words for the property about the start of the light client. *)
From Verif Require Import Base LcStart_Model.

(** The value that decides: the one set on the builder, else the one in the configuration. *)
Definition decides {A} (own : option A) (config : option (option A)) (x : option A) : Prop :=
  match own with Some _ => x = own | None => match config with Some y => x = y | None => x = None end end.
(** The root a new client starts from: the checkpoint of the builder, else that of the configuration, else what is on disk if it
    is a root of 32 bytes, else the default of the configuration, else that of the network. *)
Inductive first_root (b : builder) (d : disk) : bytes -> Prop :=
| root_set r : bd_checkpoint b = Some r -> first_root b d r
| root_configured c r : bd_checkpoint b = None -> bd_config b = Some c -> checkpoint c = Some r -> first_root b d r
| root_saved r : bd_checkpoint b = None -> (forall c, bd_config b = Some c -> checkpoint c = None) -> d = Some r -> length r = 32%nat -> first_root b d r
| root_config_default c : bd_checkpoint b = None -> bd_config b = Some c -> checkpoint c = None -> (forall r, d = Some r -> length r <> 32%nat) -> first_root b d (default_checkpoint c)
| root_network_default n : bd_checkpoint b = None -> bd_config b = None -> bd_network b = Some n -> (forall r, d = Some r -> length r <> 32%nat) -> first_root b d (base_default n).
(** The roots that were tried. *)
Definition tried (l : list (bytes * ends)) : list bytes := map fst l.
