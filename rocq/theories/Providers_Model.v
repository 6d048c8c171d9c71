(** Asking the providers of beacon and execution data: /repo/crates/ethereum-rpc-client/src/{http_client,execution}.rs and
    consensus/{mod,event,rpc_types}.rs.

    The providers are one argument, [ask]: what comes back for a request after all requests made before, in any way.  Reading JSON text and
    decoding the values for which one asks are arguments, as is the environment.  A text is its bytes.  Time is not modelled: a timeout
    is a failed request, waiting is nothing.  Redirections and the connections of the HTTP client are not modelled; its retries are. *)
From Coq Require Import String Ascii.
From Verif Require Import Base Hex_Model Args_Model Header_Model LegacyHistory_Model.

(** ** URLs and numbers in text *)
(** url's [Url], without user and fragment; a host is in lower case. *)
Record url := { scheme : bytes; host : option bytes; port : option N; path : bytes; query : option bytes }.
(** Up to the first "?", and the rest *)
Fixpoint cut (s : bytes) : bytes * option bytes :=
  match s with
  | [] => ([], None)
  | c :: s => if c =? 63 then ([], Some s) else let (p, q) := cut s in (c :: p, q)
  end.
(** url's [Url::join], for nothing and for a path from the root without dots, with or without a query *)
Definition join (u : url) (r : bytes) : url :=
  match r with
  | [] => u
  | _ => {| scheme := scheme u; host := host u; port := port u; path := fst (cut r); query := snd (cut r) |}
  end.
(** [str::contains] *)
Fixpoint contains_text (s t : bytes) : bool :=
  beqb (firstn (length s) t) s || match t with [] => false | _ :: t => contains_text s t end.
(** std's writing of an integer of 64 bits *)
Fixpoint radix (fuel : nat) (b : N) (dig : N -> N) (x : N) : bytes :=
  match fuel with
  | O => []
  | S fuel => (if x / b =? 0 then [] else radix fuel b dig (x / b)) ++ [dig (x mod b)]
  end.
Definition decimal (x : N) : bytes := radix 64 10 hex_digit x.
(** [format!("0x{height:01X}")] *)
Definition quantity (x : N) : bytes := lit "0x" ++ radix 64 16 hex_digit_upper x.

(** ** Values of serde_json.  An object has all members of the text. *)
Inductive json := JNull | JBool (b : bool) | JNum (n : N) | JStr (s : bytes) | JArr (l : list json) | JObj (l : list (bytes * json)).
Definition named (k : bytes) (l : list (bytes * json)) : list json := map snd (filter (fun p => beqb (fst p) k) l).
(** [Value::get], of a value read from text: the last of the members with this name *)
Definition get (k : bytes) (j : json) : option json :=
  match j with JObj l => match rev (named k l) with x :: _ => Some x | [] => None end | _ => None end.
(** [is_null] *)
Definition is_null (j : json) : bool := match j with JNull => true | _ => false end.

(** ** Requests and replies *)
(** jsonrpc/request.rs:14-31 [JsonRequest] *)
Record call := { method : bytes; params : list json; id : N }.
Inductive payload := Get | Post (c : call) | PostAll (l : list call).
Record exchange := { to_url : url; headers : list (bytes * bytes); sends : payload }.
(** A reply; [body]: [None] if it cannot be read to the end *)
Record response := { status : N; content_type : option bytes; consensus_version : option bytes; body : option bytes }.
(** [Failed]: without a reply; whether reqwest_retry sees the error as transient *)
Inductive sent := Failed (again : bool) | Replied (r : response).

(** http [HeaderValue::to_str] and [from_str] *)
Definition readable (v : bytes) : bool := forallb (fun c => ((32 <=? c) && (c <? 127)) || (c =? 9)) v.
Definition header_value (v : bytes) : bool := forallb (fun c => ((32 <=? c) && negb (c =? 127)) || (c =? 9)) v.
(** [HeaderMap::insert] *)
Definition insert_header (k v : bytes) (l : list (bytes * bytes)) : list (bytes * bytes) := filter (fun p => negb (beqb (fst p) k)) l ++ [(k, v)].

(** http_client.rs:12-15 *)
Definition JSON_CONTENT_TYPE : bytes := lit "application/json".
Definition SSZ_CONTENT_TYPE : bytes := lit "application/octet-stream".
Definition ACCEPT_PRIORITY : bytes := lit "application/octet-stream;q=1.0,application/json;q=0.9".
Definition JSON_ACCEPT_PRIORITY : bytes := lit "application/json;q=1".
(** http_client.rs:17-21 [ContentType] *)
Inductive content := Json | Ssz.
(** http_client.rs:93-122 [get_authorization_headers]; the environment is given. *)
Definition get_authorization_headers (env : bytes -> option bytes) (u : url) : outcome (list (bytes * bytes)) :=
  match host u with
  | None => Err
  | Some h =>
      if contains_text (lit "pandaops.io") h then
        let client_id := match env (lit "PANDAOPS_CLIENT_ID") with Some v => v | None => lit "null" end in
        let client_secret := match env (lit "PANDAOPS_CLIENT_SECRET") with Some v => v | None => lit "null" end in
        if negb (header_value client_id) then Err
        else if negb (header_value client_secret) then Err
        else Ok [(lit "cf-access-client-id", client_id); (lit "cf-access-client-secret", client_secret)]
      else Ok []
  end.
(** http_client.rs:23-27 [ClientWithBaseUrl] *)
Record client := { base_url : url; default_headers : list (bytes * bytes) }.
(** http_client.rs:31-68 [new]; building the client of reqwest does not fail. *)
Definition client_new (env : bytes -> option bytes) (u : url) (c : content) : outcome client :=
  let first := match c with
    | Json => [(lit "content-type", JSON_CONTENT_TYPE)]
    | Ssz => [(lit "content-type", SSZ_CONTENT_TYPE); (lit "accept", ACCEPT_PRIORITY)]
    end in
  omap (fun l => {| base_url := u; default_headers := fold_left (fun l p => insert_header (fst p) (snd p) l) l first |})
    (get_authorization_headers env u).
(** http_client.rs:78-86 [get] and [post] *)
Definition get_request (c : client) (endpoint : bytes) : exchange := {| to_url := join (base_url c) endpoint; headers := default_headers c; sends := Get |}.
Definition post_request (c : client) (p : payload) : exchange := {| to_url := join (base_url c) []; headers := default_headers c; sends := p |}.

(** reqwest_retry [RetryTransientMiddleware] with the default strategy *)
Definition transient (s : sent) : bool :=
  match s with
  | Failed again => again
  | Replied r => ((500 <=? status r) && (status r <? 600)) || (status r =? 408) || (status r =? 429)
  end.

Section Asking.
Variable ask : list exchange -> exchange -> sent.
Variable parse : bytes -> option json.
Variable env : bytes -> option bytes.

Fixpoint send_with (retries : nat) (x : exchange) (h : list exchange) : list exchange * sent :=
  let r := ask h x in
  if transient r then match retries with O => (h ++ [x], r) | S n => send_with n x (h ++ [x]) end else (h ++ [x], r).
(** http_client.rs:55-60: three retries *)
Definition send (x : exchange) (h : list exchange) : list exchange * sent := send_with 3 x h.

(** ** The beacon API *)
(** consensus/mod.rs:73-163: the endpoints *)
Inductive beacon_request :=
| FinalizedRoot | Bootstrap (root : bytes) | BlockRoot (id : bytes) | Updates (start count : N) | OptimisticUpdate | FinalityUpdate
| NodeVersion | BeaconState (id : bytes) | BeaconBlock (id : bytes).
Definition endpoint (q : beacon_request) : bytes :=
  match q with
  | FinalizedRoot => lit "/eth/v1/beacon/states/finalized/root"
  | Bootstrap root => lit "/eth/v1/beacon/light_client/bootstrap/" ++ hex_encode root
  | BlockRoot id => lit "/eth/v1/beacon/blocks/" ++ id ++ lit "/root"
  | Updates start count => lit "/eth/v1/beacon/light_client/updates?start_period=" ++ decimal start ++ lit "&count=" ++ decimal count
  | OptimisticUpdate => lit "/eth/v1/beacon/light_client/optimistic_update"
  | FinalityUpdate => lit "/eth/v1/beacon/light_client/finality_update"
  | NodeVersion => lit "/eth/v1/node/version"
  | BeaconState id => lit "/eth/v2/debug/beacon/states/" ++ id
  | BeaconBlock id => lit "/eth/v2/beacon/blocks/" ++ id
  end.

Section Value.
Context {T : Type}.
Variable ssz_dec : bytes -> option T.
Variable json_dec : json -> option T.

(** rpc_types.rs:8-14 [VersionedDataResponse]: the members one looks at later *)
Definition versioned := (option bytes * T)%type.
(** serde's derived reading of an optional member: [None] fails. *)
Definition opt_member (f : json -> bool) (k : string) (l : list (bytes * json)) : option json :=
  match named (lit k) l with
  | [] => Some JNull
  | [x] => if is_null x || f x then Some x else None
  | _ => None
  end.
Definition is_str (j : json) : bool := match j with JStr _ => true | _ => false end.
Definition is_bool (j : json) : bool := match j with JBool _ => true | _ => false end.
Definition text_of (j : json) : option bytes := match j with JStr s => Some s | _ => None end.
(** rpc_types.rs:27-48 [VersionedDataResult], [response]: an unexpected value is an error.  An array of the four members in order is read too. *)
Definition read_versioned (j : json) : outcome versioned :=
  match j with
  | JObj l =>
      match opt_member is_str "version" l, opt_member is_bool "execution_optimistic" l, opt_member is_bool "finalized" l, named (lit "data") l with
      | Some v, Some _, Some _, [d] => match json_dec d with Some d => Ok (text_of v, d) | None => Err end
      | _, _, _, _ => Err
      end
  | JArr [v; o; f; d] =>
      if (is_null v || is_str v) && (is_null o || is_bool o) && (is_null f || is_bool f) then
        match json_dec d with Some d => Ok (text_of v, d) | None => Err end
      else Err
  | _ => Err
  end.

(** consensus/mod.rs:341-376 [base_request] *)
Definition list_headers (l : list (bytes * bytes)) : list (bytes * bytes) :=
  insert_header (lit "accept") JSON_ACCEPT_PRIORITY (insert_header (lit "content-type") JSON_CONTENT_TYPE l).
Definition the_request (c : client) (e : bytes) (response_is_list : bool) : exchange :=
  let x := get_request c e in
  if response_is_list then {| to_url := to_url x; headers := list_headers (headers x); sends := sends x |} else x.
Definition base_request (e : bytes) (c : client) (response_is_list : bool) (h : list exchange) : list exchange * outcome (response * content) :=
  let (h, r) := send (the_request c e response_is_list) h in
  (h, match r with
      | Failed _ => Err
      | Replied r =>
          match content_type r with
          | None => Err
          | Some t =>
              if negb (readable t) then Err
              else if beqb t SSZ_CONTENT_TYPE then Ok (r, Ssz)
              else if beqb t JSON_CONTENT_TYPE then Ok (r, Json)
              else Err
          end
      end).
(** reqwest [Response::json] *)
Definition read_json (r : response) : option json := match body r with Some b => parse b | None => None end.
(** consensus/mod.rs:378-410 [request_no_fallback] *)
Definition request_no_fallback (e : bytes) (c : client) (h : list exchange) : list exchange * outcome versioned :=
  let (h, o) := base_request e c false h in
  (h, obind o (fun rc =>
    match rc with
    | (r, Ssz) =>
        obind (match consensus_version r with None => Ok None | Some v => if readable v then Ok (Some v) else Err end) (fun version =>
          match body r with
          | Some b => match ssz_dec b with Some d => Ok (version, d) | None => Err end
          | None => Err
          end)
    | (r, Json) => match read_json r with Some j => read_versioned j | None => Err end
    end)).
Fixpoint read_all (l : list json) : outcome (list versioned) :=
  match l with [] => Ok [] | j :: l => obind (read_versioned j) (fun v => omap (cons v) (read_all l)) end.
(** consensus/mod.rs:412-433 [request_list_no_fallback] *)
Definition request_list_no_fallback (e : bytes) (c : client) (h : list exchange) : list exchange * outcome (list versioned) :=
  let (h, o) := base_request e c true h in
  (h, obind o (fun rc =>
    match rc with
    | (r, Json) => match read_json r with Some (JArr l) => read_all l | _ => Err end
    | _ => Err
    end)).
(** consensus/mod.rs:292-313 [request] and 315-339 [request_list] *)
Definition request (primary fallback : client) (e : bytes) (h : list exchange) : list exchange * outcome versioned :=
  match request_no_fallback e primary h with
  | (h, Err) => request_no_fallback e fallback h
  | r => r
  end.
Definition request_list (primary fallback : client) (e : bytes) (h : list exchange) : list exchange * outcome (list versioned) :=
  match request_list_no_fallback e primary h with
  | (h, Err) => request_list_no_fallback e fallback h
  | r => r
  end.
(** consensus/mod.rs:73-163: the [data] of what one asks for *)
Definition beacon_get (primary fallback : client) (q : beacon_request) (h : list exchange) : list exchange * outcome T :=
  let (h, o) := request primary fallback (endpoint q) h in (h, omap snd o).
Definition beacon_updates (primary fallback : client) (start count : N) (h : list exchange) : list exchange * outcome (list T) :=
  let (h, o) := request_list primary fallback (endpoint (Updates start count)) h in (h, omap (map snd) o).
End Value.

(** consensus/mod.rs:47-71 [new]: both providers are asked for their version, whatever they say. *)
Definition consensus_new {V} (ssz_dec : bytes -> option V) (json_dec : json -> option V) (primary fallback : url) (h : list exchange) : list exchange * outcome (client * client) :=
  match client_new env primary Ssz with
  | Ok p =>
      let (h, _) := request_no_fallback ssz_dec json_dec (endpoint NodeVersion) p h in
      match client_new env fallback Ssz with
      | Ok f => let (h, _) := request_no_fallback ssz_dec json_dec (endpoint NodeVersion) f h in (h, Ok (p, f))
      | _ => (h, Err)
      end
  | _ => (h, Err)
  end.

(** consensus/event.rs [BeaconEvent] *)
Section Events.
Context {Ch He Li Fi : Type} (read_reorg : bytes -> option Ch) (read_head : bytes -> option He) (read_light : bytes -> option Li) (read_final : bytes -> option Fi).
Inductive event := ChainReorg (c : Ch) | Head (e : He) | LightClientOptimisticUpdate (l : Li) | FinalizedCheckpoint (f : Fi).
Inductive sse := Event (kind data : bytes) | Connected | Comment (c : bytes) | StreamError.
(** event.rs:27-49 [try_from]; the names of topics are alloy's. *)
Definition read_event (kind data : bytes) : option event :=
  if beqb kind (lit "chain_reorg") then option_map ChainReorg (read_reorg data)
  else if beqb kind (lit "head") then option_map Head (read_head data)
  else if beqb kind (lit "light_client_optimistic_update") then option_map LightClientOptimisticUpdate (read_light data)
  else if beqb kind (lit "finalized_checkpoint") then option_map FinalizedCheckpoint (read_final data)
  else None.
(** consensus/mod.rs:243-286 [get_events_stream]: what comes out for what comes in *)
Fixpoint events (l : list sse) : list event :=
  match l with
  | [] => []
  | Event k d :: l => match read_event k d with Some e => e :: events l | None => events l end
  | _ :: l => events l
  end.
End Events.

(** ** The execution API *)
(** execution.rs:32-36 [ExecutionApi], without the timeout *)
Record execution_api := { primary : url; fallback : url }.
(** execution.rs:271-293 [send_request] *)
Definition send_request (c : client) (q : call) (h : list exchange) : list exchange * outcome json :=
  let (h, r) := send (post_request c (Post q)) h in
  (h, match r with Replied r => of_option (read_json r) | Failed _ => Err end).
(** execution.rs:226-241 [send_batch_request] *)
Definition send_batch_request (c : client) (l : list call) (h : list exchange) : list exchange * outcome (list json) :=
  let (h, r) := send (post_request c (PostAll l)) h in
  (h, match r with Replied r => match read_json r with Some (JArr l) => Ok l | _ => Err end | Failed _ => Err end).
(** execution.rs:242-269 [try_request] and 190-224 [try_batch_request]; [f]: [send_request] or [send_batch_request] *)
Definition try_with {A} (f : client -> list exchange -> list exchange * outcome A) (api : execution_api) (h : list exchange) : list exchange * outcome A :=
  match client_new env (primary api) Json with
  | Ok c =>
      match f c h with
      | (h, Err) => match client_new env (fallback api) Json with Ok c => f c h | _ => (h, Err) end
      | r => r
      end
  | _ => (h, Err)
  end.
Definition try_request (api : execution_api) (q : call) : list exchange -> list exchange * outcome json := try_with (fun c => send_request c q) api.
Definition try_batch_request (api : execution_api) (l : list call) : list exchange -> list exchange * outcome (list json) := try_with (fun c => send_batch_request c l) api.

(** execution.rs:296-325 [check_provider] and 39-59 [new]: a provider that is not there is reported only. *)
Definition version_call : call := {| method := lit "web3_clientVersion"; params := []; id := 1 |}.
Definition execution_new (p f : url) (h : list exchange) : list exchange * outcome execution_api :=
  match client_new env p Json with
  | Ok c => let (h, _) := send_request c version_call h in (h, Ok {| primary := p; fallback := f |})
  | _ => (h, Err)
  end.

Section Blocks.
Context {tx rct wdl : Type}.
Variable paris : N -> bool.
(** alloy's [BlockTransactions]: in full, or their hashes only *)
Inductive rpc_transactions := Full (l : list tx) | Hashes (l : list bytes).
Record rpc_block := { rpc_header : full_header; rpc_txs : rpc_transactions; rpc_withdrawals : option (list wdl) }.
Variable block_dec : json -> option rpc_block.
Variable header_dec : json -> option full_header.
Variable receipts_dec : json -> option (list rct).
(** alloy's [into_transactions] *)
Definition into_transactions (t : rpc_transactions) : list tx := match t with Full l => l | Hashes _ => [] end.

Definition block_call (height : N) : call :=
  {| method := lit "eth_getBlockByNumber"; params := [JStr (quantity height); JBool true]; id := height mod 2 ^ 32 |}.
(** execution.rs:62-86 [get_block] *)
Definition get_block (api : execution_api) (height : N) (h : list exchange) : list exchange * outcome (full_header * @block_body tx wdl) :=
  let (h, o) := try_request api (block_call height) h in
  (h, obind o (fun j =>
    match get (lit "result") j with
    | None => Err
    | Some r =>
        match block_dec r with
        | None => Err
        | Some b =>
            if negb (paris (number (rpc_header b))) then Err
            else Ok (rpc_header b, {| transactions := into_transactions (rpc_txs b); ommers := []; withdrawals := rpc_withdrawals b |})
        end
    end)).
(** execution.rs:88-98 [get_block_body]; the key is the hash of the block. *)
Definition get_block_body (HC : codec full_header) (HL : codec (list full_header)) (TC : codec tx) (WC : codec wdl) (keccak : bytes -> bytes) (trie_root : list bytes -> bytes)
  (b : full_header * @block_body tx wdl) : outcome (bytes * @block_body tx wdl) :=
  if validate_against_header HL TC WC keccak trie_root (snd b) (fst b) then Ok (keccak (enc HC (fst b)), snd b) else Err.

Definition receipts_call (n i : N) : call := {| method := lit "eth_getBlockReceipts"; params := [JStr (quantity n)]; id := i |}.
(** execution.rs:107-129 [get_receipts]: five rounds *)
Fixpoint receipts_rounds (rounds : nat) (api : execution_api) (n : N) (h : list exchange) : list exchange * outcome (list rct) :=
  match rounds with
  | O => (h, Err)
  | S rounds =>
      match try_request api (receipts_call n 1) h with
      | (h, Ok j) =>
          match get (lit "result") j with
          | None => (h, Err)
          | Some r => if is_null r then receipts_rounds rounds api n h else (h, of_option (receipts_dec j))
          end
      | (h, Err) => (h, Err)
      | (h, Panic) => (h, Panic)
      end
  end.
Definition get_receipts : execution_api -> N -> list exchange -> list exchange * outcome (list rct) := receipts_rounds 5.

(** execution.rs:24-26 *)
Definition BATCH_LIMIT : nat := 10.
(** execution.rs:131-176 [get_receipts_range]: the calls are numbered, [i] is the next number; the answers to a batch are taken by their place. *)
Definition batch_calls (i : N) (ns : list N) : list call :=
  map (fun p => receipts_call (snd p) ((i + fst p) mod 2 ^ 32)) (combine (map N.of_nat (seq 0 (length ns))) ns).
Fixpoint assign (m : N -> option (list rct)) (ns : list N) (js : list json) : outcome (N -> option (list rct)) :=
  match ns, js with
  | n :: ns, j :: js => match receipts_dec j with Some r => assign (fun k => if k =? n then Some r else m k) ns js | None => Err end
  | _, _ => Ok m
  end.
Fixpoint range_from (fuel : nat) (api : execution_api) (m : N -> option (list rct)) (i : N) (ns : list N) (h : list exchange) : list exchange * outcome (N -> option (list rct)) :=
  match fuel, ns with
  | S fuel, _ :: _ =>
      match try_batch_request api (batch_calls i (firstn BATCH_LIMIT ns)) h with
      | (h, Ok js) =>
          match assign m (firstn BATCH_LIMIT ns) js with
          | Ok m => range_from fuel api m (i + N.of_nat BATCH_LIMIT) (skipn BATCH_LIMIT ns) h
          | Err => (h, Err)
          | Panic => (h, Panic)
          end
      | (h, Err) => (h, Err)
      | (h, Panic) => (h, Panic)
      end
  | _, _ => (h, Ok m)
  end.
Definition get_receipts_range (api : execution_api) (ns : list N) (h : list exchange) : list exchange * outcome (N -> option (list rct)) :=
  range_from (length ns) api (fun _ => None) 0 ns h.

(** execution.rs:178-188 [get_latest_block_number] *)
Definition latest_call : call := {| method := lit "eth_getBlockByNumber"; params := [JStr (lit "latest"); JBool false]; id := 1 |}.
Definition get_latest_block_number (api : execution_api) (h : list exchange) : list exchange * outcome N :=
  let (h, o) := try_request api latest_call h in
  (h, obind o (fun j =>
    match get (lit "result") j with
    | None => Err
    | Some r => match header_dec r with Some x => Ok (number x) | None => Err end
    end)).
End Blocks.
End Asking.
