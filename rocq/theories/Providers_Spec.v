(** What the answers of providers are to be. *)
From Coq Require Import String.
From Verif Require Import Base Hex_Model Args_Model Header_Model LegacyHistory_Model Providers_Model.

(** Something passing went wrong: the connection, the server, or too many requests. *)
Definition passing (s : sent) : Prop :=
  match s with Failed again => again = true | Replied r => 500 <= status r <= 599 \/ status r = 408 \/ status r = 429 end.
(** The request [x] is made [n] times after those in [h], at most four; all but the last time something passing went wrong, and the last time too
    only if it was the fourth.  [r] came back last. *)
Definition tried (ask : list exchange -> exchange -> sent) (x : exchange) (h : list exchange) (n : nat) (r : sent) : Prop :=
  (1 <= n <= 4)%nat /\ r = ask (h ++ repeat x (n - 1)) x /\
  (forall k, (k < n - 1)%nat -> passing (ask (h ++ repeat x k) x)) /\
  ((n < 4)%nat -> ~ passing r).

(** The first provider is asked, by [x]; only if what comes back is no answer, the second, by [y].  [D r a]: [r] is a reply with the answer [a]. *)
Definition first_then_second {A} (ask : list exchange -> exchange -> sent) (D : sent -> A -> Prop) (x y : exchange) (h h' : list exchange) (o : outcome A) : Prop :=
  exists n r, tried ask x h n r /\
    ((exists a, D r a /\ o = Ok a /\ h' = h ++ repeat x n)
     \/ ((forall a, ~ D r a) /\ exists m s, tried ask y (h ++ repeat x n) m s /\ h' = h ++ repeat x n ++ repeat y m /\
           ((exists a, D s a /\ o = Ok a) \/ ((forall a, ~ D s a) /\ o = Err)))).

(** The member of an object with this name: there is one only *)
Definition the_member (k : string) (l : list (bytes * json)) (j : json) : Prop :=
  exists a b, l = a ++ (lit k, j) :: b /\ ~ In (lit k) (map fst (a ++ b)).
(** A member that may be missing or null *)
Definition optional (P : json -> Prop) (k : string) (l : list (bytes * json)) : Prop :=
  ~ In (lit k) (map fst l) \/ the_member k l JNull \/ exists j, the_member k l j /\ P j.

Section Value.
Context {T : Type}.
Variable parse : bytes -> option json.
Variable ssz_dec : bytes -> option T.
Variable json_dec : json -> option T.
Definition a_bool (j : json) : Prop := exists b, j = JBool b.
Definition a_text (j : json) : Prop := exists s, j = JStr s.
(** A value of the beacon API with the data [d]; [v]: the version it names *)
Inductive holds_data : json -> option bytes -> T -> Prop :=
| in_object l j d v : the_member "data" l j -> json_dec j = Some d -> optional a_bool "execution_optimistic" l -> optional a_bool "finalized" l ->
    optional a_text "version" l -> (forall s, v = Some s <-> the_member "version" l (JStr s)) -> holds_data (JObj l) v d
| in_array o f j d : json_dec j = Some d -> (o = JNull \/ a_bool o) -> (f = JNull \/ a_bool f) -> holds_data (JArr [JNull; o; f; j]) None d
| in_array_with s o f j d : json_dec j = Some d -> (o = JNull \/ a_bool o) -> (f = JNull \/ a_bool f) -> holds_data (JArr [JStr s; o; f; j]) (Some s) d.

(** Replies with an answer, to a request for one value and for a list *)
Inductive delivers : sent -> option bytes * T -> Prop :=
| in_ssz r b d : content_type r = Some (lit "application/octet-stream") -> body r = Some b -> ssz_dec b = Some d ->
    (forall v, consensus_version r = Some v -> readable v = true) -> delivers (Replied r) (consensus_version r, d)
| in_json r b j v d : content_type r = Some (lit "application/json") -> body r = Some b -> parse b = Some j -> holds_data j v d -> delivers (Replied r) (v, d).
Inductive delivers_list : sent -> list (option bytes * T) -> Prop :=
| list_in_json r b l vs : content_type r = Some (lit "application/json") -> body r = Some b -> parse b = Some (JArr l) ->
    Forall2 (fun j v => holds_data j (fst v) (snd v)) l vs -> delivers_list (Replied r) vs.
End Value.

(** Replies of the execution API: any JSON; a list for a batch *)
Inductive replies (parse : bytes -> option json) : sent -> json -> Prop :=
| replies_json r b j : body r = Some b -> parse b = Some j -> replies parse (Replied r) j.
Inductive replies_list (parse : bytes -> option json) : sent -> list json -> Prop :=
| replies_array r b l : body r = Some b -> parse b = Some (JArr l) -> replies_list parse (Replied r) l.

(** The result in a reply: the last member of that name *)
Definition result_of (j r : json) : Prop := exists a b, j = JObj (a ++ (lit "result", r) :: b) /\ ~ In (lit "result") (map fst b).

(** A number in text, in base [b]: without a zero in front *)
Definition reads (b : N) (val : N -> option N) (s : bytes) (x : N) : Prop :=
  fold_left (fun a c => match a, val c with Some a, Some v => Some (a * b + v) | _, _ => None end) s (Some 0) = Some x
  /\ s <> [] /\ (hd 0 s = 48 -> s = [48]).

(** [t] occurs in [s] *)
Definition occurs (t s : bytes) : Prop := exists a b, s = a ++ t ++ b.
(** The host is one of the operator, or under it *)
Definition host_of_operator (h : bytes) : Prop := h = lit "ethpandaops.io" \/ exists a, h = a ++ lit ".ethpandaops.io".

(** A request for [q] at the provider [u] *)
Definition asks (u : url) (q : beacon_request) (x : exchange) : Prop :=
  sends x = Get /\ scheme (to_url x) = scheme u /\ host (to_url x) = host u /\ port (to_url x) = port u /\
  path (to_url x) ++ match query (to_url x) with Some s => lit "?" ++ s | None => [] end = endpoint q.
(** A call at the provider [u]; it names the block by its number *)
Definition calls_at (u : url) (m : string) (n : N) (rest : list json) (x : exchange) : Prop :=
  to_url x = u /\ exists c s, sends x = Post c /\ method c = lit m /\ params c = JStr (lit "0x" ++ s) :: rest /\ reads 16 hex_val s n.
(** A URL of a provider without host, or an environment with secrets that cannot be sent *)
Definition usable (env : bytes -> option bytes) (u : url) : Prop :=
  exists h, host u = Some h /\ (occurs (lit "pandaops.io") h -> forall n v, env n = Some v -> header_value v = true).
Definition valid_request (q : beacon_request) : Prop :=
  match q with
  | Bootstrap root => bytes_ok root
  | Updates a b => a < 2 ^ 64 /\ b < 2 ^ 64
  | _ => True
  end.
