(** How arguments are written. *)
From Coq Require Import String Ascii.
From Verif Require Import Base Args_Model.

(** [s] are the decimal digits of [n], most significant first; zeros may stand in front. *)
Inductive digits : bytes -> N -> Prop :=
| digit_one d : d < 10 -> digits [48 + d] d
| digit_more s n d : digits s n -> d < 10 -> digits (s ++ [48 + d]) (10 * n + d).
(** [s] is a number of 64 bits; a sign may stand in front. *)
Definition number_text (s : bytes) (n : N) : Prop :=
  n < 2 ^ 64 /\ (digits s n \/ exists r, s = 43 :: r /\ digits r n).

(** [s] is [l] with [c] between any two, and [c] is in none of them. *)
Fixpoint join (c : N) (l : list bytes) : bytes :=
  match l with
  | [] => []
  | [p] => p
  | p :: l => p ++ c :: join c l
  end.
Definition separated (c : N) (l : list bytes) (s : bytes) : Prop :=
  l <> [] /\ s = join c l /\ Forall (fun p => ~ In c p) l.

(** The modes of the bridge *)
Inductive mode_text : bytes -> bridge_mode -> Prop :=
| text_latest : mode_text (lit "latest") Latest
| text_e2hs : mode_text (lit "e2hs") E2HS
| text_ephemeral : mode_text (lit "ephemeral-history") EphemeralHistory
| text_single a b x y : number_text a x -> number_text b y -> x <= y -> mode_text (lit "single:r" ++ a ++ lit "-" ++ b) (Single x y)
| text_snapshot a x : number_text a x -> mode_text (lit "snapshot:" ++ a) (Snapshot x).

(** The usual way to write a number of 64 bits *)
Fixpoint write_digits (fuel : nat) (n : N) : bytes :=
  match fuel with
  | O => []
  | S fuel => (if n <? 10 then [] else write_digits fuel (n / 10)) ++ [48 + n mod 10]
  end.
Definition write (n : N) : bytes := write_digits 20 n.
Definition write_mode (m : bridge_mode) : bytes :=
  match m with
  | Latest => lit "latest"
  | E2HS => lit "e2hs"
  | EphemeralHistory => lit "ephemeral-history"
  | Single x y => lit "single:r" ++ write x ++ lit "-" ++ write y
  | Snapshot x => lit "snapshot:" ++ write x
  end.
Definition mode_ok (m : bridge_mode) : Prop :=
  match m with Single x y => x <= y /\ y < 2 ^ 64 | Snapshot x => x < 2 ^ 64 | _ => True end.

(** The ranges of the bridge from history files *)
Inductive range_text : bytes -> block_range -> Prop :=
| text_open a x : number_text a x -> range_text (a ++ lit "-") {| range_start := x; range_stop := None |}
| text_closed a b x y : number_text a x -> number_text b y -> range_text (a ++ lit "-" ++ b) {| range_start := x; range_stop := Some y |}.

(** What each kind of bridge can do *)
Inductive runs : Capacity_Model.subnetwork -> bridge_mode -> option block_range -> work -> Prop :=
| runs_beacon r : runs Capacity_Model.Beacon Latest r FollowBeacon
| runs_files r : runs Capacity_Model.LegacyHistory E2HS (Some r) (GossipFiles r)
| runs_head r : runs Capacity_Model.LegacyHistory EphemeralHistory r FollowHead
| runs_state x y r : y <= 15537394 -> runs Capacity_Model.State (Single x y) r (GossipState x y)
| runs_snapshot n r : 0 < n -> runs Capacity_Model.State (Snapshot n) r (GossipSnapshot n).
