(** The census of the bridge: the nodes of a network it knows, when they are to be checked, and
    which of them are chosen for an offer (bin/portal-bridge/src/census/{peer,peers,scoring,network}.rs).

    Answers of nodes, the nodes a search finds, the clock and the random choice are arguments.  Time
    is in milliseconds.  A check is one atomic step: between its reading and its writing of the known
    nodes another task can only record the result of an offer.  Not modelled: logging, metrics, the
    sizes and durations kept with offers (never read), the parsing of the client's name, the three
    networks side by side (mod.rs keeps one such state for each), the interval between searches. *)
From Coq Require Import QArith.
From Verif Require Import Base Wire_Model Ping_Model KBucket_Model F64_Model AcceptCodes_Model.

(** ** Known nodes *)
(** peer.rs:17-47; newest first.  [None] is [OfferTrace::Failed]. *)
Record peer := {
  p_enr : enr;
  p_client : option client_info;
  p_radius : N;
  p_checks : list (bool * N);
  p_offers : list (option accept_code * N) }.
(** peer.rs:51, 53 *)
Definition max_checks : N := 10.
Definition max_offers : N := 255.
(** peer.rs:55-63 *)
Definition new_peer (e : enr) : peer := {| p_enr := e; p_client := None; p_radius := 0; p_checks := []; p_offers := [] |}.
(** peer.rs:155-162 [purge]: [drain(MAX..)] *)
Definition purge (p : peer) : peer :=
  {| p_enr := p_enr p; p_client := p_client p; p_radius := p_radius p;
     p_checks := firstn (N.to_nat max_checks) (p_checks p);
     p_offers := firstn (N.to_nat max_offers) (p_offers p) |}.
(** peer.rs:78-89; the key is [(affected_by_radius, content_id)] *)
Definition is_interested (p : peer) (key : bool * N) : bool :=
  if fst key then N.lxor (enr_id (p_enr p)) (snd key) <=? p_radius p else true.
(** peer.rs:92-99 *)
Definition is_obsolete (p : peer) : bool :=
  if blen (p_checks p) <? max_checks then false else forallb (fun c => negb (fst c)) (p_checks p).
(** peer.rs:101-129 *)
Definition check_passed (p : peer) (now : N) (e : enr) (client : option client_info) (radius : N) : outcome peer :=
  if negb (enr_id (p_enr p) =? enr_id e) then Panic
  else Ok (purge {| p_enr := if enr_seq e <? enr_seq (p_enr p) then p_enr p else e;
                    p_client := client; p_radius := radius;
                    p_checks := (true, now) :: p_checks p; p_offers := p_offers p |}).
(** peer.rs:131-137 *)
Definition check_failed (p : peer) (now : N) : peer :=
  purge {| p_enr := p_enr p; p_client := p_client p; p_radius := p_radius p;
           p_checks := (false, now) :: p_checks p; p_offers := p_offers p |}.
(** peer.rs:139-152 *)
Definition offer_made (p : peer) (now : N) (r : option accept_code) : peer :=
  purge {| p_enr := p_enr p; p_client := p_client p; p_radius := p_radius p;
           p_checks := p_checks p; p_offers := (r, now) :: p_offers p |}.

(** ** All of them, and the checks to come *)
(** A map with unique keys. *)
Definition get {A} (k : N) (m : list (N * A)) : option A := option_map snd (find (fun x => fst x =? k) m).
Definition del {A} (k : N) (m : list (N * A)) : list (N * A) := filter (fun x => negb (fst x =? k)) m.
Definition put {A} (k : N) (a : A) (m : list (N * A)) : list (N * A) := (k, a) :: del k m.
(** peers.rs:27, 33-38; [checks] has the deadlines kept by [HashSetDelay] *)
Definition check_delay : N := 300000.
Record census := { peers : list (N * peer); checks : list (N * N) }.
Definition no_peers : census := {| peers := []; checks := [] |}.
(** peers.rs:73-87; [insert] of [HashSetDelay] sets the deadline anew *)
Definition record_passed (st : census) (now : N) (e : enr) (client : option client_info) (radius : N) : outcome census :=
  let id := enr_id e in
  let p := match get id (peers st) with Some p => p | None => new_peer e end in
  omap (fun p' => {| peers := put id p' (peers st); checks := put id (now + check_delay) (checks st) |})
       (check_passed p now e client radius).
(** peers.rs:89-108 *)
Definition record_failed (st : census) (now : N) (e : enr) : census :=
  let id := enr_id e in
  match get id (peers st) with
  | None => {| peers := peers st; checks := del id (checks st) |}
  | Some p =>
      let p' := check_failed p now in
      if is_obsolete p' then {| peers := del id (peers st); checks := del id (checks st) |}
      else {| peers := put id p' (peers st); checks := put id (now + check_delay) (checks st) |}
  end.
(** peers.rs:110-123 *)
Definition record_offer (st : census) (now id : N) (r : option accept_code) : census :=
  match get id (peers st) with
  | Some p => {| peers := put id (offer_made p now r) (peers st); checks := checks st |}
  | None => st
  end.

(** ** Checking a node *)
(** What a node answers to a ping ([Pong]: the number of its record, and the payload) and to a
    request for its record. *)
Record answers := { pong : outcome (N * ext_type * bytes); own_records : outcome (list enr) }.
(** network.rs:31-39 *)
Inductive result := Pass | Fail | Fresh.
(** network.rs:299-311; [expect 1] is only a warning *)
Definition fetch_enr (e : enr) (a : answers) : outcome enr :=
  obind (own_records a) (fun es =>
    match find (fun x => enr_id x =? enr_id e) es with Some x => Ok x | None => Err end).
(** network.rs:241-294 *)
Definition liveness_check (st : census) (now : N) (e : enr) (a : answers) : outcome (census * result) :=
  if match get (enr_id e) (checks st) with Some t => now <? t | None => false end then Ok (st, Fresh)
  else match pong a with
  | Ok (seq, t, payload) =>
      match decode_extension t payload with
      | Ok (ECapabilities client radius _) =>
          if enr_seq e <? seq then
            match fetch_enr e a with
            | Ok e' => omap (fun st' => (st', Pass)) (record_passed st now e' client radius)
            | _ => Ok (record_failed st now e, Fail)
            end
          else omap (fun st' => (st', Pass)) (record_passed st now e client radius)
      | _ => Ok (st, Fail)
      end
  | _ => Ok (record_failed st now e, Fail)
  end.

(** ** What happens to a census *)
Inductive event :=
| Found (now : N) (e : enr) (a : answers)               (* network.rs:194-206, 501-503: a search found a record *)
| Due (now : N) (id : N) (a : answers)                  (* peers.rs:146-167, network.rs:476-483 *)
| Offered (now : N) (id : N) (r : option accept_code).  (* network.rs:127-136 *)
(** The effect of an event, and the result of the check it led to, if any.  [Due] is ignored if no
    check of [id] has expired: [poll_expired] does not return [id] then. *)
Definition step (st : census) (ev : event) : outcome (census * option result) :=
  match ev with
  | Found now e a => omap (fun x => (fst x, Some (snd x))) (liveness_check st now e a)
  | Due now id a =>
      match get id (checks st) with
      | Some t =>
          if t <=? now then
            let st' := {| peers := peers st; checks := del id (checks st) |} in
            match get id (peers st) with
            | Some p => omap (fun x => (fst x, Some (snd x))) (liveness_check st' now (p_enr p) a)
            | None => Ok (st', None)
            end
          else Ok (st, None)
      | None => Ok (st, None)
      end
  | Offered now id r => Ok (record_offer st now id r, None)
  end.
Fixpoint run (st : census) (es : list event) : outcome (census * list (option result)) :=
  match es with
  | [] => Ok (st, [])
  | ev :: es' => obind (step st ev) (fun x => omap (fun y => (fst y, snd x :: snd y)) (run (fst x) es'))
  end.

(** ** Setting up *)
(** network.rs:184-189: one record of every node, the last of those with the largest number.  The
    order is that of a hash map, here that of the last occurrences. *)
Definition newest_of (id : N) (es : list enr) : option enr :=
  fold_left (fun best x => if enr_id x =? id then
                             match best with Some b => if enr_seq x <? enr_seq b then best else Some x | None => Some x end
                           else best) es None.
Definition newest_records (es : list enr) : list enr :=
  flat_map (fun id => match newest_of id es with Some e => [e] | None => [] end) (nodup N.eq_dec (map enr_id es)).
(** network.rs:216 with the threshold of :57 *)
Definition enough (starting ending : N) : bool :=
  let new_peers := inject_Z (Z.of_N ending - Z.of_N starting) in
  let limit := fmul (f64_of ending) (flit (1 # 10)) in
  negb (Qle_bool limit new_peers).
(** One iteration: the records its searches return, the time and what every node answers. *)
Record round := { r_found : list enr; r_now : N; r_ask : enr -> answers }.
Definition run_round (st : census) (r : round) : outcome census :=
  omap fst (run st (map (fun e => Found (r_now r) e (r_ask r e)) (newest_records (r_found r)))).
(** network.rs:146-235: how it ends, [None] as long as it has not ended, and the state *)
Fixpoint init (st : census) (rs : list round) : outcome (option bool * census) :=
  match rs with
  | [] => Ok (None, st)
  | r :: rs' =>
      obind (run_round st r) (fun st' =>
        if enough (blen (peers st)) (blen (peers st'))
        then Ok (Some (negb (blen (peers st') =? 0)), st')
        else init st' rs')
  end.

(** ** Choosing nodes *)
(** scoring.rs:45-84 *)
Definition timeframe : N := 900000.
Definition starting_weight : Z := 200.
Definition maximum_weight : Z := 400.
Definition success_weight : Z := 5.
Definition failure_weight : Z := -10.
Definition code_weight (c : accept_code) : Z :=
  (match c with
   | Accepted => 5 | AlreadyStored => 0 | RateLimited => -2 | InboundTransferInProgress => -2
   | Declined => -5 | Unspecified => -5 | NotWithinRadius => -10
   end)%Z.
Definition zsum (l : list Z) : Z := fold_right Z.add 0%Z l.
(** [timestamp.elapsed() <= timeframe]; [elapsed] is 0 for a time to come *)
Definition recent (now t : N) : bool := now - t <=? timeframe.
(** scoring.rs:87-126.  The sums are [i32]s: the number of summands is bounded by [max_checks] and
    [max_offers]. *)
Definition weight (now : N) (key : option (bool * N)) (p : peer) : Z :=
  if match key with Some k => negb (is_interested p k) | None => false end then 0%Z
  else
    let live := zsum (map (fun c : bool * N => if fst c then success_weight else failure_weight)
                          (filter (fun c => recent now (snd c)) (p_checks p))) in
    let offer := zsum (map (fun o : option accept_code * N => match fst o with Some c => code_weight c | None => failure_weight end)
                           (filter (fun o => recent now (snd o)) (p_offers p))) in
    Z.max 0 (Z.min maximum_weight (starting_weight + live + offer)).
(** scoring.rs:150-166 and network.rs:112-124.  [choose] stands for [choose_multiple_weighted]. *)
Definition select_peers (choose : N -> list (peer * Z) -> list (peer * Z)) (limit : N)
    (st : census) (now : N) (key : option (bool * N)) : outcome (list (enr * option client_info)) :=
  if blen (peers st) =? 0 then Err
  else
    let weighted := filter (fun x => (0 <? snd x)%Z) (map (fun x : N * peer => (snd x, weight now key (snd x))) (peers st)) in
    Ok (map (fun x => (p_enr (fst x), p_client (fst x))) (choose limit weighted)).
