(** What the light client is to ask for and to take as an answer. *)
From Coq Require Import String Ascii.
From Verif Require Import Base Hex_Model Args_Model Args_Spec Header_Model LegacyHistory_Model Providers_Model Providers_Spec LcRpc_Model.

(** The paths of the beacon API, with numbers written in base ten and roots in base sixteen *)
Definition api : bytes := lit "/eth/v1/beacon/light_client/".
Inductive path_of : lc_query -> bytes -> Prop :=
| path_bootstrap root s : hex_decode s = Ok root -> path_of (QBootstrap root) (api ++ lit "bootstrap/" ++ s)
| path_updates p n a b : reads 10 hex_val a p -> reads 10 hex_val b n -> path_of (QUpdates p n) (api ++ lit "updates?start_period=" ++ a ++ lit "&count=" ++ b)
| path_finality : path_of QFinality (api ++ lit "finality_update")
| path_optimistic : path_of QOptimistic (api ++ lit "optimistic_update")
| path_spec : path_of QSpec (lit "/eth/v1/config/spec").
(** Roots of bytes, numbers of 64 bits *)
Definition query_ok (q : lc_query) : Prop :=
  match q with QBootstrap r => bytes_ok r | QUpdates p n => p < 2 ^ 64 /\ n < 2 ^ 64 | _ => True end.
(** The query that may be made in place of [q]: the beacon API allows 128 updates at a time. *)
Definition allowed (q : lc_query) : lc_query := match q with QUpdates p n => QUpdates p (N.min n 128) | q => q end.

(** [j] is an object with the one member [k], whose value is read as [v], among others; or a list of that value alone *)
Inductive has_member {T} (k : string) (dec : json -> option T) : json -> T -> Prop :=
| member_in l d v : the_member k l d -> dec d = Some v -> has_member k dec (JObj l) v
| member_alone d v : dec d = Some v -> has_member k dec (JArr [d]) v.
(** The reply is JSON that is read as [v], by [R] *)
Definition replies_with {T} (parse : bytes -> option json) (R : json -> T -> Prop) (r : option reply) (v : T) : Prop :=
  exists a b j, r = Some a /\ reply_body a = Some b /\ parse b = Some j /\ R j v.
(** A list of objects, each with its data *)
Definition data_list {T} (dec : json -> option T) (j : json) (vs : list T) : Prop := exists l, j = JArr l /\ Forall2 (has_member "data" dec) l vs.
(** The number of the chain, as text *)
Inductive says_chain : json -> N -> Prop :=
| says_in l d l' s n : the_member "data" l d -> (d = JObj l' /\ the_member "DEPOSIT_NETWORK_ID" l' (JStr s) \/ d = JArr [JStr s]) -> number_text s n -> says_chain (JObj l) n
| says_alone d l' s n : (d = JObj l' /\ the_member "DEPOSIT_NETWORK_ID" l' (JStr s) \/ d = JArr [JStr s]) -> number_text s n -> says_chain (JArr [d]) n.
(** Asking with [f] is to make the one request [u], and to take [v] exactly if the reply gives it; otherwise it fails, without a panic. *)
Definition asks_once {R T X} (ask : list R -> R -> X) (u : R) (gives : X -> T -> Prop) (f : list R -> list R * outcome T) : Prop :=
  forall h, fst (f h) = h ++ [u] /\ snd (f h) <> Panic /\ forall v, snd (f h) = Ok v <-> gives (ask h u) v.
(** The content that was found is [v] *)
Definition found {V T} (decode : lc_key -> bytes -> option V) (k : lc_key) (P : V -> T -> Prop) (r : option bytes) (v : T) : Prop :=
  exists b x, r = Some b /\ decode k b = Some x /\ P x v.
