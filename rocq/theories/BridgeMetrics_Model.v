(** What a bridge reports of its offers, and timers: /repo/crates/metrics/src/{bridge,timer}.rs, /repo/crates/metrics/src/storage.rs:96-107,
    /repo/crates/ethportal-api/src/types/client_type.rs, accept_code.rs:168-180, ping_extensions/extensions/type_0.rs:61-69, and where offers are reported:
    /repo/bin/portal-bridge/src/bridge/ephemeral_history/gossiper.rs:229-299, 350-392, e2hs.rs:426-507, beacon.rs:505-580, state.rs:524-595.

    Counters are naturals (the code's [u64]) and times are in nanoseconds (the code's [f64] of seconds).  Tasks end in any order or are dropped.  [lower] is
    [str::to_lowercase].  Not modelled: buckets of histograms, the gauges of the bridge's mode and block. *)
From Coq Require Import String Ascii.
From Verif Require Import Base Header_Model Args_Model.

(** client_type.rs:12-20 *)
Inductive client := Fluffy | Trin | TrinExecution | Shisui | Ultralight | Samba | Unknown (name : option bytes).
(** client_type.rs:22-35 *)
Definition client_from (lower : bytes -> bytes) (value : bytes) : client :=
  let v := lower value in
  if beqb v (lit "fluffy") then Fluffy else if beqb v (lit "trin") then Trin else if beqb v (lit "trin-execution") then TrinExecution
  else if beqb v (lit "shisui") then Shisui else if beqb v (lit "ultralight") then Ultralight else if beqb v (lit "samba") then Samba
  else Unknown (Some v).
(** type_0.rs:61-69 [get_client_type]: [None] if the peer says nothing of its client *)
Definition get_client_type (lower : bytes -> bytes) (name : option bytes) : client :=
  match name with Some n => client_from lower n | None => Unknown None end.
(** client_type.rs:37-45 *)
Definition client_text (c : client) : bytes :=
  match c with
  | Fluffy => lit "Fluffy" | Trin => lit "Trin" | TrinExecution => lit "TrinExecution" | Shisui => lit "Shisui" | Ultralight => lit "Ultralight" | Samba => lit "Samba"
  | Unknown (Some n) => lit "Unknown(" ++ n ++ lit ")"
  | Unknown None => lit "Unknown"
  end.
(** accept_code.rs:145-180 *)
Inductive code := Accepted | Declined | AlreadyStored | NotWithinRadius | RateLimited | InboundTransferInProgress | Unspecified.
Definition code_text (c : code) : bytes :=
  match c with
  | Accepted => lit "Accepted" | Declined => lit "Declined" | AlreadyStored => lit "AlreadyStored" | NotWithinRadius => lit "NotWithinRadius"
  | RateLimited => lit "RateLimited" | InboundTransferInProgress => lit "InboundTransferInProgress" | Unspecified => lit "Unspecified"
  end.
(** portal_wire.rs [OfferTrace] and bridge.rs:110-113 *)
Inductive trace := Success (c : code) | Failed.
Definition trace_text (t : trace) : bytes := match t with Success c => code_text c | Failed => lit "Failed" end.

(** A counter with labels: the series that exist, with their values *)
Definition labels := list bytes.
Definition counter := list (labels * N).
Fixpoint labels_eqb (a b : labels) : bool :=
  match a, b with [], [] => true | x :: a, y :: b => beqb x y && labels_eqb a b | _, _ => false end.
Definition value (c : counter) (l : labels) : N := match find (fun x => labels_eqb (fst x) l) c with Some x => snd x | None => 0 end.
(** [with_label_values] makes the series if there is none *)
Fixpoint inc (c : counter) (l : labels) : counter :=
  match c with
  | [] => [(l, 1)]
  | (k, n) :: c => if labels_eqb k l then (k, n + 1) :: c else (k, n) :: inc c l
  end.
(** bridge.rs:104-124 [report_offer] *)
Definition report_offer (c : counter) (bridge content_type : bytes) (cl : client) (t : trace) : counter :=
  inc c [bridge; content_type; client_text cl; trace_text t].

(** An offer in progress.  [kind]: the label of its content; [None] for a series of headers, which is not reported (gossiper.rs:384-386) *)
Record offer := { kind : option bytes; peer : client; began : N }.
Record state := { running : list (N * offer); offers : counter; times : list N }.
Definition start : state := {| running := []; offers := []; times := [] |}.
Inductive event := Begin (id : N) (kind : option bytes) (peer : client) (now : N) | End (id : N) (t : trace) (now : N) | Dropped (id : N) (now : N).
Definition offer_of (s : state) (id : N) : option offer := option_map snd (find (fun x => fst x =? id) (running s)).
Definition without (id : N) (l : list (N * offer)) : list (N * offer) := filter (fun x => negb (fst x =? id)) l.
(** gossiper.rs:229-299, 350-392 and the like.  The timer of bridge.rs:90-99 is Prometheus' own, which observes when it is dropped as well.  The second component: what has ended, and how *)
Definition step (bridge : bytes) (s : state) (e : event) : state * option (offer * option trace) :=
  match e with
  | Begin id k p now =>
      match offer_of s id with
      | Some _ => (s, None)
      | None => ({| running := (id, {| kind := k; peer := p; began := now |}) :: running s; offers := offers s; times := times s |}, None)
      end
  | End id t now =>
      match offer_of s id with
      | None => (s, None)
      | Some o => ({| running := without id (running s);
                      offers := match kind o with Some k => report_offer (offers s) bridge k (peer o) t | None => offers s end;
                      times := times s ++ [now - began o] |}, Some (o, Some t))
      end
  | Dropped id now =>
      match offer_of s id with
      | None => (s, None)
      | Some o => ({| running := without id (running s); offers := offers s; times := times s ++ [now - began o] |}, Some (o, None))
      end
  end.
Fixpoint run (bridge : bytes) (s : state) (es : list event) : state * list (offer * option trace) :=
  match es with
  | [] => (s, [])
  | e :: es => let (s, o) := step bridge s e in let (s, l) := run bridge s es in (s, match o with Some x => x :: l | None => l end)
  end.

(** timer.rs:11-73 [DiscardOnDropHistogramTimer]; a timer is used up by each of these *)
Record timer := { started : N; observed : bool }.
Inductive use := Observe | StopAndRecord | StopAndDiscard | Drop.
Definition new_timer (now : N) : timer := {| started := now; observed := false |}.
(** 56-66 [observe]; a clock that goes back counts as 0 *)
Definition observe (record : bool) (now : N) (h : list N) (t : timer) : list N * timer * N :=
  let d := now - started t in (if record then h ++ [d] else h, {| started := started t; observed := true |}, d).
(** 69-73 *)
Definition drop (now : N) (h : list N) (t : timer) : list N := if negb (observed t) then fst (fst (observe false now h t)) else h.
(** 34-54: the method, then the drop at its end; the time that is returned *)
Definition use_timer (u : use) (now now' : N) (h : list N) (t : timer) : list N * option N :=
  match u with
  | Observe => let '(h, t, _) := observe true now h t in (drop now' h t, None)
  | StopAndRecord => let '(h, t, d) := observe true now h t in (drop now' h t, Some d)
  | StopAndDiscard => let '(h, t, d) := observe false now h t in (drop now' h t, Some d)
  | Drop => (drop now' h t, None)
  end.
(** Timers of one histogram, each started and used up: a storage function that returns early drops its timer (storage.rs:96-107) *)
Definition use_timers (h : list N) (l : list (N * use * N * N)) : list N :=
  fold_left (fun h x => let '(a, u, b, c) := x in fst (use_timer u b c h (new_timer a))) l h.
