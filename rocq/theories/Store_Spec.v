(** Vocabulary for the content store: what is stored, how large it is, and which histories
    are considered. *)
From Verif Require Import Base Distance_Model Distance_Spec Store_Model.

(** The size of the entries: of each, the lengths of its id, key and value. *)
Definition entries_size (l : list row) : N :=
  fold_right (fun r a => blen (r_id r) + blen (r_key r) + blen (r_value r) + a) 0 l.
(** What the entries occupy: their size and the overhead of each. *)
Definition real_usage (s : store) : N := entries_size (rows s) + extra (cfg s) * blen (rows s).

Definition config_ok (c : config) : Prop := id32 (node_id c) /\ max_radius c < 2 ^ 256.
Definition op_ok (o : op) : Prop :=
  match o with
  | OReopen c _ _ | OCrash _ _ _ _ _ c _ _ => config_ok c
  | _ => True
  end.

(** A store that results from opening an empty database and any history of operations,
    restarts and crashes. *)
Definition reachable (content_id : bytes -> bytes) (s : store) : Prop :=
  exists c ties durs s0 ops,
    config_ok c /\ fst (create c ties durs []) = Ok s0 /\ Forall op_ok ops /\ run content_id s0 ops = Some s.

(** The same, but content already present was not inserted again since the store was opened. *)
Fixpoint no_repeats (content_id : bytes -> bytes) (s : store) (ops : list op) : Prop :=
  match ops with
  | [] => True
  | o :: ops' =>
      match o with OInsert _ _ k _ => lookup (content_id k) s = None | _ => True end /\
      match step content_id s o with Some s' => no_repeats content_id s' ops' | None => True end
  end.
Definition reachable_once (content_id : bytes -> bytes) (s : store) : Prop :=
  exists c ties durs db s0 ops,
    config_ok c /\ fst (create c ties durs db) = Ok s0 /\ Forall op_ok ops /\
    (exists c0 t0 d0 s1 ops1, config_ok c0 /\ fst (create c0 t0 d0 []) = Ok s1 /\ Forall op_ok ops1 /\
       exists s2, run content_id s1 ops1 = Some s2 /\ rows s2 = db) /\
    no_repeats content_id s0 ops /\ run content_id s0 ops = Some s.

(** Histories whose configurations all have the same maximal radius. *)
Definition op_max_radius (m : N) (o : op) : Prop :=
  match o with
  | OReopen c _ _ | OCrash _ _ _ _ _ c _ _ => max_radius c = m
  | _ => True
  end.

Definition reachable_radius (content_id : bytes -> bytes) (m : N) (s : store) : Prop :=
  exists c ties durs s0 ops,
    config_ok c /\ max_radius c = m /\ fst (create c ties durs []) = Ok s0 /\ Forall op_ok ops /\
    Forall (op_max_radius m) ops /\ run content_id s0 ops = Some s.

(** The table once the content is added and before anything is pruned. *)
Definition with_content (content_id : bytes -> bytes) (key value : bytes) (s : store) (id : bytes) : option bytes :=
  if beqb id (content_id key)
  then Some (match lookup id s with Some old => old | None => value end)
  else lookup id s.
(** What it would occupy by the store's own count. *)
Definition usage_with (content_id : bytes -> bytes) (key value : bytes) (s : store) : N :=
  total_size (stats s) + blen (content_id key) + blen key + blen value + (entry_count (stats s) + 1) * extra (cfg s).

(** Distances as far as the database knows them: the first four bytes. *)
Definition prefix (d : N) : N := d / 2 ^ 224.
Definition entry_distance (s : store) (r : row) : N := distance (node_id (cfg s)) (r_id r).

(** Strict order of byte strings. *)
Definition lex_sorted (l : list bytes) : Prop := StronglySorted lex_lt l.
