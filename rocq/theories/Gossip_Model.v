(** Choosing the peers to whom content is gossiped: /repo/crates/portalnet/src/gossip/,
    put_content.rs and [poke_content] of overlay/service/find_content.rs.

    A hash map from records to lists is a list of pairs with distinct records; the order of the
    pairs stands for the unspecified iteration order and no statement depends on it. *)
From Verif Require Import Base.
From Verif Require Import Distance_Model Sort_Model KBucket_Model.

(** A piece of content with what is computed from its key in gossip/mod.rs:34-41: content id, raw
    key, whether it is affected by the radius of nodes. *)
Record item := { i_id : N; i_key : bytes; i_value : bytes; i_by_radius : bool }.
(** portal.rs:8 [MAX_CONTENT_KEYS_PER_OFFER] *)
Definition max_keys_per_offer : nat := 64.

(** Equality of records *)
Definition enr_eqb (a b : enr) : bool := (enr_id a =? enr_id b) && (enr_seq a =? enr_seq b) && beqb (enr_rest a) (enr_rest b).

(** [entry(e).or_default()] followed by [extend]; also the reduction in mod.rs:62-66 *)
Fixpoint extend (e : enr) (ids : list N) (m : list (enr * list N)) : list (enr * list N) :=
  match m with
  | [] => [(e, ids)]
  | (e', l) :: r => if enr_eqb e e' then (e', l ++ ids) :: r else (e', l) :: extend e ids r
  end.

Section Choices.
(** The random choices: [farther id n l] picks [n] of [l] for the content [id], [random n l] picks
    [n] entries of [l]. *)
Variable farther : N -> nat -> list enr -> list enr.
Variable random : nat -> list slot -> list slot.

(** neighborhood.rs:52-53 *)
Definition num_closest_peers : nat := 4.
Definition num_farther_peers : nat := 4.
(** neighborhood.rs:62-86 [select_content_recipients] *)
Definition select_recipients (id : N) (peers : list enr) : list enr :=
  if (length peers <=? num_closest_peers + num_farther_peers)%nat then peers
  else
    let sorted := sort_by (fun a b => N.lxor id (enr_id a) <=? N.lxor id (enr_id b)) peers in
    firstn num_closest_peers sorted ++ farther id num_farther_peers (skipn num_closest_peers sorted).

(** neighborhood.rs:28-50, the loop of [gossip_recipients].  The lists of interested peers are
    removed from the map as they are used: [seen] are the ids already removed. *)
Fixpoint neighborhood_loop (t : table) (ids seen : list N) (content : list item) (m : list (enr * list N)) : list (enr * list N) :=
  match content with
  | [] => m
  | x :: r =>
      let peers := if existsb (N.eqb (i_id x)) seen then [] else batch_interested ids (i_id x) t in
      let m' := match peers with
                | [] => m
                | _ => fold_left (fun m e => extend e [i_id x] m) (select_recipients (i_id x) peers) m
                end in
      neighborhood_loop t ids (i_id x :: seen) r m'
  end.
(** neighborhood.rs:10-50 [gossip_recipients] *)
Definition neighborhood (t : table) (content : list item) : list (enr * list N) :=
  neighborhood_loop t (map i_id content) [] content [].

(** random.rs:8 *)
Definition num_peers : N := 8.
(** random.rs:10-27 [gossip_recipients] *)
Definition random_recipients (t : table) (content : list item) : list (enr * list N) :=
  match content with
  | [] => []
  | _ => map (fun e => (e, map i_id content)) (random_peers random num_peers t)
  end.

(** gossip/mod.rs:69-72, 84 [raw_content]: for repeated ids the last item counts. *)
Definition raw_content (content : list item) (id : N) : bytes * bytes :=
  match find (fun x => i_id x =? id) (rev content) with Some x => (i_key x, i_value x) | None => ([], []) end.

(** gossip/mod.rs:30-90 [gossip_recipients] *)
Definition recipients (content : list item) (t : table) : list (enr * list (bytes * bytes)) :=
  let peers := fold_left (fun m p => extend (fst p) (snd p) m)
    (neighborhood t (filter i_by_radius content) ++ random_recipients t (filter (fun x => negb (i_by_radius x)) content)) [] in
  map (fun p => (fst p, map (raw_content content) (firstn max_keys_per_offer (snd p)))) peers.

(** put_content.rs:25-62 [propagate_put_content_cross_thread]: offers that are sent, the number that is
    returned, the permits that are left.  [permits] is [None] if there is no uTP controller. *)
Fixpoint send_offers (l : list (enr * list (bytes * bytes))) (permits : option N) : list (enr * list (bytes * bytes)) * option N :=
  match l with
  | [] => ([], permits)
  | o :: r =>
      match permits with
      | Some n =>
          if n =? 0 then send_offers r permits
          else let (out, p) := send_offers r (Some (n - 1)) in (o :: out, p)
      | None => let (out, p) := send_offers r permits in (o :: out, p)
      end
  end.
Definition propagate (content : list item) (t : table) (permits : option N) : list (enr * list (bytes * bytes)) * N * option N :=
  let r := recipients content t in
  let (out, p) := send_offers r permits in (out, blen r, p).
End Choices.

(** find_content.rs:620-690 [poke_content]: with [permits] for outgoing transfers left; results are the peers
    the content is offered to and the permits left. *)
Fixpoint poke (t : table) (x : item) (nodes : list N) (permits : N) : list enr * N :=
  match nodes with
  | [] => ([], permits)
  | id :: r =>
      match present_or_pending id t with
      | None => poke t x r permits
      | Some n =>
          if (if i_by_radius x then N.lxor id (i_id x) <=? n_radius n else true) then
            if permits =? 0 then poke t x r permits
            else let (out, p) := poke t x r (permits - 1) in (n_enr n :: out, p)
          else poke t x r permits
      end
  end.
