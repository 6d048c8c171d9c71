(** What the database of trin-execution should return: a world of accounts, storage slots, codes and
    block hashes, and what blocks and bundles of changes do to it. *)
From Verif Require Import Base Trie_Model StateContent_Model ExecDb_Model.

Record world := mk_world {
  w_account : bytes -> option info;   (* by address *)
  w_slot : bytes -> N -> N;           (* by address and index *)
  w_code : bytes -> option bytes;     (* by code hash *)
  w_hash : N -> option bytes }.       (* by block number *)

Definition at_key {A} (k : bytes) (v : A) (f : bytes -> A) : bytes -> A :=
  fun x => if bytes_eq_dec x k then v else f x.
Definition at_num {A} (k : N) (v : A) (f : N -> A) : N -> A := fun x => if N.eq_dec x k then v else f x.

(** An account gets new values, or disappears with its storage. *)
Definition see_account (w : world) (x : bytes * option info) : world :=
  mk_world (at_key (fst x) (snd x) (w_account w))
    (match snd x with Some _ => w_slot w | None => at_key (fst x) (fun _ => 0) (w_slot w) end)
    (w_code w) (w_hash w).
Definition see_code (w : world) (x : bytes * bytes) : world :=
  mk_world (w_account w) (w_slot w) (at_key (fst x) (Some (snd x)) (w_code w)) (w_hash w).
(** The storage of an account is emptied if it is wiped, then slots get new values. *)
Definition see_slots (f : N -> N) (l : list (N * N)) : N -> N :=
  fold_left (fun f x => at_num (fst x) (snd x) f) l f.
Definition see_storage (w : world) (c : storage_change) : world :=
  let before := if c_wipe c then fun _ => 0 else w_slot w (c_address c) in
  mk_world (w_account w) (at_key (c_address c) (see_slots before (c_storage c)) (w_slot w)) (w_code w) (w_hash w).
Definition see_bundle (w : world) (b : bundle) : world :=
  fold_left see_storage (b_storage b) (fold_left see_code (b_contracts b) (fold_left see_account (b_accounts b) w)).
(** A block adds its hash and takes away that of the block 256 before it. *)
Definition see_hash (w : world) (n : N) (h : bytes) : world :=
  mk_world (w_account w) (w_slot w) (w_code w)
    (let f := at_num n (Some h) (w_hash w) in if 256 <=? n then at_num (n - 256) None f else f).

Section Apart.
Context (keccak : bytes -> bytes) (root_of : kv -> bytes).
(** The addresses, codes, block numbers, slots and slot values that occur. *)
Context (is_address is_code : bytes -> Prop) (is_number is_slot is_value : N -> Prop).

(** A trie over these slots and values. *)
Definition slot_trie (m : kv) : Prop :=
  forall k v, m k = Some v -> exists n x, is_slot n /\ is_value x /\ x <> 0 /\ k = keccak (be_bytes 32 n) /\ v = rlp_uint x.

(** Their keys in the database are all different. *)
Record apart : Prop := {
  ap_len : forall x, length (keccak x) = 32%nat;
  ap_root_len : forall m, length (root_of m) = 32%nat;
  ap_address : forall a b, is_address a -> is_address b -> keccak a = keccak b -> a = b;
  ap_code : forall a b, is_code a -> is_code b -> keccak a = keccak b -> a = b;
  ap_number : forall a b, is_number a -> is_number b -> keccak (be_bytes 32 a) = keccak (be_bytes 32 b) -> a = b;
  ap_slot : forall a b, is_slot a -> is_slot b -> keccak (be_bytes 32 a) = keccak (be_bytes 32 b) -> a = b;
  ap_address_code : forall a b, is_address a -> is_code b -> keccak a <> keccak b;
  ap_address_number : forall a b, is_address a -> is_number b -> keccak a <> keccak (be_bytes 32 b);
  ap_code_number : forall a b, is_code a -> is_number b -> keccak a <> keccak (be_bytes 32 b);
  ap_none : is_code [];
  ap_zero_address : forall a, is_address a -> keccak a <> repeat 0 32;
  ap_zero_code : forall a, is_code a -> keccak a <> repeat 0 32;
  ap_zero_number : forall n, is_number n -> keccak (be_bytes 32 n) <> repeat 0 32;
  ap_root : forall m, slot_trie m -> root_of m = keccak [128] -> forall k, m k = None }.

(** A bundle that revm can produce in this world: its numbers fit their types, hashes of codes are
    right, and slots are only given to accounts that exist. *)
Definition info_ok (i : info) : Prop := i_balance i < 2 ^ 256 /\ i_nonce i < 2 ^ 64 /\ length (i_code_hash i) = 32%nat.
Record fits (w : world) (b : bundle) : Prop := {
  fit_accounts : Forall (fun x => is_address (fst x) /\ match snd x with Some i => info_ok i | None => True end) (b_accounts b);
  fit_codes : Forall (fun x => is_code (snd x) /\ fst x = keccak (snd x)) (b_contracts b);
  fit_storage : Forall (fun c => is_address (c_address c) /\
     Forall (fun x => is_slot (fst x) /\ is_value (snd x) /\ snd x < 2 ^ 256) (c_storage c)) (b_storage b);
  fit_exists : Forall (fun c => c_storage c = [] \/ w_account (fold_left see_account (b_accounts b) w) (c_address c) <> None)
     (b_storage b) }.

(** The database returns this world. *)
Record returns (s : state) (w : world) : Prop := {
  rt_account : forall a, is_address a -> basic keccak s a = Ok (w_account w a);
  rt_slot : forall a n, is_address a -> is_slot n ->
    storage keccak s a n = match w_account w a with Some _ => Ok (w_slot w a n) | None => Err end;
  rt_code : forall c, is_code c -> code_by_hash s (keccak c) = of_option (w_code w (keccak c));
  rt_hash : forall n, is_number n -> block_hash keccak s n = of_option (w_hash w n) }.

(** A trie that holds exactly the slots of [f] that are not zero. *)
Definition trie_of_slots (f : N -> N) (m : kv) : Prop :=
  slot_trie m /\
  forall n, is_slot n -> m (keccak (be_bytes 32 n)) = if f n =? 0 then None else Some (rlp_uint (f n)).
(** The root of such a trie; that of an empty one is [keccak [128]]. *)
Definition slots_root (f : N -> N) (r : bytes) : Prop :=
  (r = keccak [128] /\ forall n, is_slot n -> f n = 0) \/ (exists m, r = root_of m /\ trie_of_slots f m).
(** A state trie that commits to the accounts and the storage of this world. *)
Definition commits (t : kv) (w : world) : Prop :=
  forall a, is_address a ->
    match w_account w a with
    | None => t (keccak a) = None
    | Some i => exists r, slots_root (w_slot w a) r /\
                          t (keccak a) = Some (encode_account (mk_account (i_nonce i) (i_balance i) r (i_code_hash i)))
    end.
End Apart.

(** The history of a node: blocks that were executed, and bundles that were committed. *)
Inductive event := Executed (h : header) | Committed (h : header) (b : bundle).
Section History.
Context (alloc : list (bytes * N)) (keccak : bytes -> bytes) (root_of : kv -> bytes).
Context (is_address is_code : bytes -> Prop) (is_number is_slot is_value : N -> Prop).
Definition see_genesis (w : world) (x : bytes * N) : world := see_account w (fst x, Some (mk_info (snd x) 0 (keccak []))).
Definition see (w : world) (e : event) : world :=
  match e with
  | Executed h => if h_number h =? 0 then fold_left see_genesis alloc w else see_hash w (h_number h) (h_hash h)
  | Committed _ b => see_bundle w b
  end.
(** The world of a new database: only the empty code is known. *)
Definition no_world : world :=
  mk_world (fun _ => None) (fun _ _ => 0) (at_key (keccak []) (Some []) (fun _ => None)) (fun _ => None).
Definition event_ok (w : world) (e : event) : Prop :=
  match e with
  | Executed h => length (h_hash h) = 32%nat /\ is_number (h_number h) /\
                  (256 <= h_number h -> is_number (h_number h - 256)) /\
                  (h_number h = 0 -> Forall (fun x => is_address (fst x) /\ snd x < 2 ^ 256 /\ w_account w (fst x) = None) alloc)
  | Committed h b => fits keccak is_address is_code is_slot is_value w b /\ h_number h + 1 < 2 ^ 64
  end.
Fixpoint events_ok (w : world) (l : list event) : Prop :=
  match l with [] => True | e :: r => event_ok w e /\ events_ok (see w e) r end.
(** What the node does, and whether all commits found the state root of their header. *)
Definition do_event (e : event) (s : state) : state * outcome unit :=
  match e with
  | Executed h => execute_block keccak alloc h s
  | Committed h b => commit keccak root_of h b s
  end.
Fixpoint play (l : list event) (s : state) : state * list (outcome unit) :=
  match l with
  | [] => (s, [])
  | e :: r => let (s', o) := do_event e s in let (s'', os) := play r s' in (s'', o :: os)
  end.
End History.
(** The blocks of a history. *)
Fixpoint executed (l : list event) : list header :=
  match l with [] => [] | Executed h :: r => h :: executed r | Committed _ _ :: r => executed r end.
(** Blocks with the numbers [from, from + 1, ...]. *)
Definition consecutive (from : N) (l : list header) : Prop :=
  forall i h, nth_error l i = Some h -> h_number h = from + N.of_nat i.
