(** What the checks of nodes say, told without the state of the census, and how well a node did. *)
From Verif Require Import Base Wire_Model Ping_Model KBucket_Model AcceptCodes_Model Census_Model.

(** *** The answer of a node of which the record [e] is known *)
(** It answered with its capabilities, among them its radius; [e'] is its record: the known one
    unless the answer announces a newer one, then the first of its own records it returns. *)
Definition alive (e : enr) (a : answers) (e' : enr) (client : option client_info) (radius : N) : Prop :=
  exists seq t payload caps,
    pong a = Ok (seq, t, payload) /\ decode_extension t payload = Ok (ECapabilities client radius caps) /\
    ((seq <= enr_seq e /\ e' = e) \/
     (enr_seq e < seq /\ exists before after, own_records a = Ok (before ++ e' :: after) /\ enr_id e' = enr_id e /\
        (forall x, In x before -> enr_id x <> enr_id e))).
(** The answer to the ping has no capabilities. *)
Definition odd (a : answers) : Prop :=
  exists seq t payload, pong a = Ok (seq, t, payload) /\ forall client radius caps, decode_extension t payload <> Ok (ECapabilities client radius caps).
(** It did not answer the ping, or did not return the record it announced. *)
Definition silent (e : enr) (a : answers) : Prop := ~ odd a /\ forall e' client radius, ~ alive e a e' client radius.

(** *** The history of one node *)
Definition answers_of (ev : event) : option answers :=
  match ev with Found _ _ a => Some a | Due _ _ a => Some a | Offered _ _ _ => None end.
Definition node_of (ev : event) : N := match ev with Found _ e _ => enr_id e | Due _ id _ => id | Offered _ id _ => id end.
(** [noted id es rs bs]: [bs] are the outcomes of the checks of node [id] in the order they were
    made, given the events and their results; odd answers and checks found unnecessary do not count. *)
Inductive noted (id : N) : list event -> list (option result) -> list bool -> Prop :=
| noted_nil : noted id [] [] []
| noted_pass ev es rs bs : node_of ev = id -> noted id es rs bs -> noted id (ev :: es) (Some Pass :: rs) (true :: bs)
| noted_fail ev a es rs bs : node_of ev = id -> answers_of ev = Some a -> ~ odd a -> noted id es rs bs ->
    noted id (ev :: es) (Some Fail :: rs) (false :: bs)
| noted_odd ev a es rs bs : answers_of ev = Some a -> odd a -> noted id es rs bs -> noted id (ev :: es) (Some Fail :: rs) bs
| noted_fresh ev es r rs bs : r = Some Fresh \/ r = None -> noted id es rs bs -> noted id (ev :: es) (r :: rs) bs
| noted_other ev es r rs bs : node_of ev <> id -> noted id es rs bs -> noted id (ev :: es) (r :: rs) bs.
(** A node becomes known with the first check it passes, and is forgotten when ten checks in a row
    have failed.  The outcomes of its checks since it is known, newest first. *)
Definition next_standing (s : option (list bool)) (b : bool) : option (list bool) :=
  match s with
  | None => if b then Some [true] else None
  | Some h => if list_eq_dec Bool.bool_dec (firstn 10 (b :: h)) (repeat false 10) then None else Some (b :: h)
  end.
Definition standing (bs : list bool) : option (list bool) := fold_left next_standing bs None.

(** *** How well a node did *)
Definition count {A} (f : A -> bool) (l : list A) : Z := Z.of_nat (length (filter f l)).
Definition within (now t : N) : bool := now <=? t + 900000.
Definition code_in (cs : list accept_code) (o : option accept_code) : bool :=
  match o with Some c => existsb (fun d => code_u8 d =? code_u8 c) cs | None => false end.
Definition score (now : N) (p : peer) : Z :=
  let cs := map fst (filter (fun c => within now (snd c)) (p_checks p)) in
  let os := map fst (filter (fun o => within now (snd o)) (p_offers p)) in
  (200 + 5 * count (fun b => b) cs - 10 * count negb cs
   + 5 * count (code_in [Accepted]) os - 2 * count (code_in [RateLimited; InboundTransferInProgress]) os
   - 5 * count (code_in [Declined; Unspecified]) os - 10 * count (code_in [NotWithinRadius]) os
   - 10 * count (fun o => match o with None => true | _ => false end) os)%Z.
Definition wants (p : peer) (key : option (bool * N)) : Prop :=
  forall id, key = Some (true, id) -> N.lxor (enr_id (p_enr p)) id <= p_radius p.
(** A check that failed or an offer that was not taken, lately. *)
Definition troubles (now : N) (p : peer) : Z :=
  (count (fun c => within now (snd c) && negb (fst c)) (p_checks p) +
   count (fun o => within now (snd o) && negb (code_in [Accepted; AlreadyStored] (fst o))) (p_offers p))%Z.
(** A random choice takes as many as asked for, or all. *)
Definition chooses {A} (choose : N -> list A -> list A) : Prop :=
  forall n l, exists left, Permutation (choose n l ++ left) l /\ blen (choose n l) = N.min n (blen l).
