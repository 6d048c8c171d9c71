(** The beacon chain as the light client sees it, and what it means for an update to be justified.
    Only the types of updates and stores come from the model. *)
From Verif Require Import Base Merkle_Spec Header_Spec LightClient_Model.

(** What the Rust types guarantee. *)
Definition header_typed (h : bheader) : Prop :=
  b_slot h < 2 ^ 64 /\ proposer h < 2 ^ 64 /\ len32 (parent_root h) /\ len32 (state_root h) /\ len32 (body_root h).
Definition committee_typed (c : committee) : Prop :=
  length (pubkeys c) = 512%nat /\ Forall (fun k => length k = 48%nat) (pubkeys c) /\ length (aggregate_pubkey c) = 48%nat.
Definition update_typed (u : update) : Prop :=
  match u with
  | FullUpdate a c cb f fb bs _ _ => header_typed a /\ committee_typed c /\ Forall len32 cb /\ header_typed f /\ Forall len32 fb /\ length bs = 512%nat
  | FinalityUpdate a f fb bs _ _ => header_typed a /\ header_typed f /\ Forall len32 fb /\ length bs = 512%nat
  | OptimisticUpdate a bs _ _ => header_typed a /\ length bs = 512%nat
  end.
Definition config_typed (cf : config) : Prop :=
  len32 (genesis_root cf) /\ length (genesis_version cf) = 4%nat /\ Forall (fun f => length (snd f) = 4%nat) (fork_epochs cf).

(** Parts of an update. *)
Definition attested_of (u : update) : bheader := match u with FullUpdate a _ _ _ _ _ _ _ | FinalityUpdate a _ _ _ _ _ | OptimisticUpdate a _ _ _ => a end.
Definition finality_of (u : update) : option (bheader * list bytes) :=
  match u with FullUpdate _ _ _ f fb _ _ _ | FinalityUpdate _ f fb _ _ _ => Some (f, fb) | OptimisticUpdate _ _ _ _ => None end.
Definition bits_of (u : update) : list bool := match u with FullUpdate _ _ _ _ _ b _ _ | FinalityUpdate _ _ _ b _ _ | OptimisticUpdate _ b _ _ => b end.
Definition sig_of (u : update) : bytes := match u with FullUpdate _ _ _ _ _ _ s _ | FinalityUpdate _ _ _ _ s _ | OptimisticUpdate _ _ s _ => s end.
Definition sig_slot_of (u : update) : N := match u with FullUpdate _ _ _ _ _ _ _ n | FinalityUpdate _ _ _ _ _ n | OptimisticUpdate _ _ _ n => n end.
Definition committee_of (u : update) : option committee := match u with FullUpdate _ c _ _ _ _ _ _ => Some c | _ => None end.

(** The sync committee period of a slot: 8192 slots. *)
Definition period_of (slot : N) : N := slot / 8192.
(** How many of the 512 members signed; two thirds of them. *)
Definition signers (bs : list bool) : N := N.of_nat (count_occ Bool.bool_dec bs true).
Definition supermajority (bs : list bool) : Prop := 2 * 512 <= 3 * signers bs.

(** The version of the fork a slot is in: that of the last fork that has started. *)
Definition in_fork (cf : config) (slot : N) (v : bytes) : Prop :=
  (exists e, In (e, v) (fork_epochs cf) /\ e * 32 <= slot /\ forall e' v', In (e', v') (fork_epochs cf) -> e' * 32 <= slot -> e' <= e) \/
  (v = genesis_version cf /\ forall e' v', In (e', v') (fork_epochs cf) -> slot < e' * 32).

Section Crypto.
Context (sha : bytes -> bytes) {key : Type} (parse_key : bytes -> option key) (aggregate_verify : list key -> bytes -> bytes -> bool).

(** SSZ roots. *)
Definition header_leaves (h : bheader) : list bytes :=
  [le_bytes 32 (b_slot h); le_bytes 32 (proposer h); parent_root h; state_root h; body_root h].
Definition root_of_header (h : bheader) : bytes := merkle_root sha 3 (header_leaves h).
Definition root_of_key (k : bytes) : bytes := sha (k ++ repeat 0 16).
Definition root_of_keys (ks : list bytes) : bytes := merkle_root sha 9 (map root_of_key ks).
Definition root_of_committee (c : committee) : bytes := sha (root_of_keys (pubkeys c) ++ root_of_key (aggregate_pubkey c)).

(** The members of a committee whose bit is set, and the message they sign for a header. *)
Definition selected (c : committee) (bs : list bool) : list bytes := map fst (filter snd (combine (pubkeys c) bs)).
Definition message (genesis version : bytes) (a : bheader) : bytes :=
  sha (root_of_header a ++ [7; 0; 0; 0] ++ firstn 28 (sha (version ++ repeat 0 28 ++ genesis))).
Definition signed_by (c : committee) (bs : list bool) (genesis version : bytes) (a : bheader) (sig : bytes) : Prop :=
  exists keys, Forall2 (fun k p => parse_key k = Some p) (selected c bs) keys /\ aggregate_verify keys (message genesis version a) sig = true.

(** A leaf is proven by a branch of a given length against the state of a header. *)
Fixpoint path_root (leaf : bytes) (branch : list bytes) (index : N) : bytes :=
  match branch with
  | [] => leaf
  | h :: r => path_root (sha (if N.odd index then h ++ leaf else leaf ++ h)) r (N.div2 index)
  end.
Definition proven (a : bheader) (leaf : bytes) (branch : list bytes) (depth : nat) (index : N) : Prop :=
  length branch = depth /\ path_root leaf branch index = state_root a.

(** ** What a checkpoint and a set of updates justify *)
Section Trust.
Context (cf : config) (checkpoint : bytes) (boots : bootstrap_data -> Prop) (seen : N -> update -> Prop).
(** The committees, by period, that are vouched for: the one in the state of the checkpoint, and those in the states
    of headers that two thirds of a committee already vouched for have signed. *)
Inductive trusted_committee : N -> committee -> Prop :=
| by_checkpoint b : boots b -> root_of_header (bs_header b) = checkpoint ->
    proven (bs_header b) (root_of_committee (bs_committee b)) (bs_branch b) 6 22 ->
    trusted_committee (period_of (b_slot (bs_header b))) (bs_committee b)
| by_update now a c cb f fb bs sig slot by_c v :
    seen now (FullUpdate a c cb f fb bs sig slot) -> slot <= now -> b_slot a < slot -> supermajority bs ->
    trusted_committee (period_of slot) by_c -> in_fork cf slot v -> signed_by by_c bs (genesis_root cf) v a sig ->
    proven a (root_of_committee c) cb 6 23 ->
    trusted_committee (period_of (b_slot a) + 1) c.
(** An update signed, by at least one member, in the name of the committee of the period. *)
Definition endorsed (now : N) (u : update) : Prop :=
  seen now u /\ 0 < signers (bits_of u) /\ sig_slot_of u <= now /\ b_slot (attested_of u) < sig_slot_of u /\
  exists c v, trusted_committee (period_of (sig_slot_of u)) c /\ in_fork cf (sig_slot_of u) v /\
              signed_by c (bits_of u) (genesis_root cf) v (attested_of u) (sig_of u).
(** The header of the checkpoint, and the headers finalised in the states of headers signed by two thirds. *)
Definition trusted_header (h : bheader) : Prop :=
  (exists b, boots b /\ root_of_header (bs_header b) = checkpoint /\ h = bs_header b) \/
  (exists now u fb, endorsed now u /\ supermajority (bits_of u) /\ finality_of u = Some (h, fb) /\ b_slot h <= b_slot (attested_of u) /\
                    proven (attested_of u) (root_of_header h) fb 7 41).
End Trust.

(** The chain: its blocks, the roots of the fields of the state after each, the block that is finalised there, and
    the sync committees by period. *)
Record beacon_chain := {
  canonical : bheader -> Prop;
  fields : bheader -> list bytes;
  finalized_epoch : bheader -> bytes;
  finalized_block : bheader -> bheader;
  committee_at : N -> committee;
}.
Definition chain_ok (ch : beacon_chain) : Prop :=
  forall a, canonical ch a ->
    header_typed a /\ Forall len32 (fields ch a) /\ (length (fields ch a) <= 64)%nat /\ len32 (finalized_epoch ch a) /\
    state_root a = merkle_root sha 6 (fields ch a) /\
    nth_error (fields ch a) 20 = Some (sha (finalized_epoch ch a ++ root_of_header (finalized_block ch a))) /\
    nth_error (fields ch a) 22 = Some (root_of_committee (committee_at ch (period_of (b_slot a)))) /\
    nth_error (fields ch a) 23 = Some (root_of_committee (committee_at ch (period_of (b_slot a) + 1))) /\
    canonical ch (finalized_block ch a) /\ forall p, committee_typed (committee_at ch p).
(** The assumption of the protocol: two thirds of a sync committee sign only blocks of the chain. *)
Definition honest (ch : beacon_chain) (cf : config) : Prop :=
  forall a bs sig slot v, header_typed a -> length bs = 512%nat -> supermajority bs -> in_fork cf slot v ->
    signed_by (committee_at ch (period_of slot)) bs (genesis_root cf) v a sig -> canonical ch a.

(** What is hashed for a header, a committee, a state. *)
Definition hashed_by_header (h : bheader) : list bytes := hashed_by_tree sha 3 (header_leaves h).
Definition hashed_by_committee (c : committee) : list bytes :=
  map (fun k => k ++ repeat 0 16) (aggregate_pubkey c :: pubkeys c) ++ hashed_by_tree sha 9 (map root_of_key (pubkeys c)) ++
  [root_of_keys (pubkeys c) ++ root_of_key (aggregate_pubkey c)].
Definition hashed_by_state (ch : beacon_chain) (a : bheader) : list bytes :=
  hashed_by_tree sha 6 (fields ch a) ++ [finalized_epoch ch a ++ root_of_header (finalized_block ch a)].
(** A collision of hashes between an update and the block of the chain it was signed for. *)
Definition broken_by (ch : beacon_chain) (u : update) : Prop :=
  let a := attested_of u in
  canonical ch a /\
  match u with
  | FullUpdate _ c cb f fb _ _ _ =>
      clash sha (hashed_by_header f ++ hashed_by_proof sha (root_of_header f) fb 41 ++ hashed_by_committee c ++ hashed_by_proof sha (root_of_committee c) cb 23)
                (hashed_by_state ch a ++ hashed_by_header (finalized_block ch a) ++ hashed_by_committee (committee_at ch (period_of (b_slot a) + 1)))
  | FinalityUpdate _ f fb _ _ _ =>
      clash sha (hashed_by_header f ++ hashed_by_proof sha (root_of_header f) fb 41) (hashed_by_state ch a ++ hashed_by_header (finalized_block ch a))
  | OptimisticUpdate _ _ _ _ => False
  end.
(** The same for a bootstrap. *)
Definition broken_by_bootstrap (ch : beacon_chain) (h : bheader) (b : bootstrap_data) : Prop :=
  clash sha (hashed_by_header (bs_header b) ++ hashed_by_committee (bs_committee b) ++ hashed_by_proof sha (root_of_committee (bs_committee b)) (bs_branch b) 22)
            (hashed_by_header h ++ hashed_by_state ch h ++ hashed_by_committee (committee_at ch (period_of (b_slot h)))).

(** ** Honest servers *)
(** An update whose proofs and times are right, signed by the sync committee of its period. *)
Definition sound_update (ch : beacon_chain) (cf : config) (now : N) (u : update) : Prop :=
  update_typed u /\ 0 < signers (bits_of u) /\ sig_slot_of u <= now /\ b_slot (attested_of u) < sig_slot_of u /\
  (forall f fb, finality_of u = Some (f, fb) -> b_slot f <= b_slot (attested_of u) /\ proven (attested_of u) (root_of_header f) fb 7 41) /\
  (forall a c cb f fb bs sig slot, u = FullUpdate a c cb f fb bs sig slot ->
     proven a (root_of_committee c) cb 6 23 /\ c = committee_at ch (period_of (b_slot a) + 1)) /\
  forall v, in_fork cf (sig_slot_of u) v -> signed_by (committee_at ch (period_of (sig_slot_of u))) (bits_of u) (genesis_root cf) v (attested_of u) (sig_of u).
(** The update for a period: everything in it belongs to the period, and two thirds signed. *)
Definition serves (ch : beacon_chain) (cf : config) (p now : N) (u : update) : Prop :=
  sound_update ch cf now u /\ supermajority (bits_of u) /\ period_of (sig_slot_of u) = p /\ period_of (b_slot (attested_of u)) = p /\
  exists a c cb f fb bs sig slot, u = FullUpdate a c cb f fb bs sig slot /\ period_of (b_slot f) = p.
(** The store holds the committees of the period of its finalised header, and of the next one if it is known. *)
Definition in_step (ch : beacon_chain) (s : store) : Prop :=
  current_committee s = committee_at ch (period_of (b_slot (finalized s))) /\
  (next_known s = None \/ next_known s = Some (committee_at ch (period_of (b_slot (finalized s)) + 1))).
(** The periods whose signatures the store can check. *)
Definition checks (s : store) (p : N) : Prop :=
  p = period_of (b_slot (finalized s)) \/ (p = period_of (b_slot (finalized s)) + 1 /\ next_known s <> None).
End Crypto.

(** The updates among what was fetched, with the slot of the clock when they were checked. *)
Definition fetched_in (f : fetched) (now : N) (u : update) : Prop :=
  (exists p l, f_updates f p = Some l /\ In (now, u) l) \/ f_finality f = Some (now, u) \/ f_optimistic f = Some (now, u).
Definition fetched_by (f : fetched) (gs : list fetched) (now : N) (u : update) : Prop := fetched_in f now u \/ exists g, In g gs /\ fetched_in g now u.
Definition booted_by (f : fetched) (b : bootstrap_data) : Prop := exists now, f_bootstrap f = Some (now, b).
(** The configuration lists the forks from the latest to the first. *)
Fixpoint descending (l : list (N * bytes)) : Prop :=
  match l with [] => True | (e, _) :: r => (forall e' v', In (e', v') r -> e' <= e) /\ descending r end.
