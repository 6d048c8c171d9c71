(** What a user gets over JSON-RPC: /repo/crates/rpc/src/{fetch,errors,serde,ping_extension,legacy_history_rpc,state_rpc,beacon_rpc}.rs and
    /repo/crates/subnetworks/{legacy-history,state,beacon}/src/jsonrpc.rs.

    A text is its bytes.  The server of jsonrpsee, the channels between the tasks and what serde_json does with text are not modelled: reading
    the text of an error is an argument, as are the texts of Rust's [Debug] and of errors of serde.  What the overlay and the store answer
    is an argument too (they are OverlayApi_Model and Store_Model). *)
From Coq Require Import ZArith String Ascii.
From Verif Require Import Base.
From Verif Require Import Hex_Model Wire_Model KBucket_Model AcceptCodes_Model Ping_Model Args_Model Trie_Model.
Import Ping_Model.

(** ** Values of serde_json *)
Inductive json := JNull | JBool (b : bool) | JNum (n : N) | JStr (s : bytes) | JArr (l : list json) | JObj (l : list (bytes * json)).
Definition field (n : string) (l : list (bytes * json)) : option json := option_map snd (find (fun p => beqb (lit n) (fst p)) l).
(** [alloy::primitives::Bytes]: written with "0x", read with or without *)
Definition write_bytes (b : bytes) : json := JStr (hex_encode b).
Definition read_bytes (v : json) : option bytes :=
  match v with
  | JStr (48 :: 120 :: r) => match hex_decode_raw r with Ok b => Some b | _ => None end
  | JStr r => match hex_decode_raw r with Ok b => Some b | _ => None end
  | _ => None
  end.
Definition read_bool (v : json) : option bool := match v with JBool b => Some b | _ => None end.

(** ** Errors *)
Section Api.
(** [Tr]: traces of queries *)
Context {Tr : Type}.
(** rpc errors.rs:42-71 *)
Inductive serve_error :=
| EMessage (m : bytes)
| EMethodNotFound (m : bytes)
| EContentNotFound (m : bytes) (t : option Tr)
| EPayloadTypeNotSupported (m : bytes) (client : bool)
| EPayload (m : bytes)
| EPayloadTypeRequired (m : bytes).
(** errors.rs:73-94: what is sent to the user *)
Inductive error_data := NoData | DTrace (t : option Tr) | DReason (client : bool).
Definition error_object (e : serve_error) : Z * bytes * error_data :=
  match e with
  | EMessage m => ((-32099)%Z, m, NoData)
  | EMethodNotFound m => ((-32601)%Z, m, NoData)
  | EContentNotFound m t => ((-39001)%Z, m, DTrace t)
  | EPayloadTypeNotSupported m c => ((-39004)%Z, m, DReason c)
  | EPayload m => ((-39005)%Z, m, NoData)
  | EPayloadTypeRequired m => ((-39006)%Z, m, NoData)
  end.
Inductive reply (A : Type) := Answer (a : A) | Error (e : serve_error).
Arguments Answer {A}. Arguments Error {A}.

(** [str::contains] *)
Fixpoint starts_with (p s : bytes) : bool :=
  match p, s with [], _ => true | x :: p, y :: s => (x =? y) && starts_with p s | _ :: _, [] => false end.
Fixpoint contains (p s : bytes) : bool :=
  starts_with p s || match s with [] => false | _ :: r => contains p r end.
Definition phrase : bytes := lit "Unable to locate content on the network".

(** [parse_error]: [serde_json::from_str::<ContentNotFoundJsonError>]; [complaint]: the text if a value is not of the type asked for *)
Context (parse_error : bytes -> option (bytes * option Tr)) (complaint : json -> bytes).
(** What a subnetwork sends back: [Result<Value, String>], or nothing if its task is gone *)
Inductive response := ROk (v : json) | RErr (text : bytes).
(** fetch.rs:11-45 [proxy_to_subnet]; serde.rs:7-9 *)
Definition proxy_to_subnet {A} (read : json -> option A) (r : option response) : reply A :=
  match r with
  | None => Error (EMessage (lit "Internal error: No response from subnetwork"))
  | Some (ROk v) => match read v with Some a => Answer a | None => Error (EMessage (complaint v)) end
  | Some (RErr msg) =>
      if contains phrase msg then match parse_error msg with Some (m, t) => Error (EContentNotFound m t) | None => Error (EMessage msg) end
      else Error (EMessage msg)
  end.

(** ** Errors of the overlay: overlay/errors.rs:8-63 *)
Inductive overlay_error :=
| ChannelFailure (m : bytes) | InvalidRequest (m : bytes) | InvalidResponse | FailedValidation (m : bytes) | EmptyResponse | DecodeError | Timeout
| Failure (m : bytes) | Discv5Error (m : bytes) | AcceptError (m : bytes) | OfferError (m : bytes) | UtpError (m : bytes) | InvalidRemoteDiscv5Packet
| ContentNotFound (m : bytes) (utp : bool) (t : option Tr).
Definition display (e : overlay_error) : bytes :=
  match e with
  | ChannelFailure m => lit "Channel failure: " ++ m
  | InvalidRequest m => lit "Invalid request: " ++ m
  | InvalidResponse => lit "Invalid response"
  | FailedValidation m => lit "Response content failed validation: " ++ m
  | EmptyResponse => lit "The request returned an empty response"
  | DecodeError => lit "The message was unable to be decoded"
  | Timeout => lit "The request timed out"
  | Failure m => lit "Failure to serve request: " ++ m
  | Discv5Error m => lit "Internal Discovery v5 error: " ++ m
  | AcceptError m => lit "Error while building accept message: " ++ m
  | OfferError m => lit "Error while sending offer message: " ++ m
  | UtpError m => lit "uTP request error: " ++ m
  | InvalidRemoteDiscv5Packet => lit "Received invalid remote discv5 packet"
  | ContentNotFound m _ _ => lit "Content wasn't found on the network: " ++ m
  end.
(** [debug]: the text of [{:?}] *)
Context (debug : overlay_error -> bytes).

(** ** Text of JSON as far as errors need it *)
(** serde_json's escapes; [\u00XX] for the other control characters *)
Definition escape_char (c : N) : bytes :=
  if c =? 34 then [92; 34] else if c =? 92 then [92; 92] else if c =? 8 then [92; 98] else if c =? 9 then [92; 116] else if c =? 10 then [92; 110]
  else if c =? 12 then [92; 102] else if c =? 13 then [92; 114]
  else if c <? 32 then lit "\u00" ++ [hex_digit (c / 16); hex_digit (c mod 16)] else [c].
Definition quote (s : bytes) : bytes := 34 :: flat_map escape_char s ++ [34].
(** [trace_text]: the JSON text of a trace, or [null] *)
Context (trace_text : option Tr -> bytes).
Definition bool_text (b : bool) : bytes := lit (if b then "true" else "false").
(** legacy-history jsonrpc.rs:117-127, and the same for the others: the text of an error of a search for content *)
Definition not_found_message (m : bytes) (utp : bool) : bytes := m ++ lit ": utp: " ++ bool_text utp.
Definition not_found_text (m : bytes) (t : option Tr) : bytes :=
  lit "{" ++ quote (lit "message") ++ lit ":" ++ quote m ++ lit "," ++ quote (lit "trace") ++ lit ":" ++ trace_text t ++ lit "}".

(** ** Content *)
(** What [lookup_content] of the overlay gives: protocol.rs:715-747 *)
Inductive search_result := Unanswered (e : overlay_error) | Found (content : bytes) (utp : bool) (trace : option Tr) | NotFound (e : overlay_error).
(** [write_trace], [read_trace]: a trace as a value *)
Context (write_trace : Tr -> json) (read_trace : json -> option Tr).
(** legacy-history jsonrpc.rs:94-150, state jsonrpc.rs:214-268, beacon jsonrpc.rs:151-207 [get_content] *)
Definition get_content (is_trace : bool) (r : search_result) : response :=
  match r with
  | Unanswered e => RErr (display e)
  | NotFound (ContentNotFound m utp t) => RErr (not_found_text (not_found_message m utp) t)
  | NotFound e => RErr (display e)
  | Found c utp t =>
      if is_trace then
        match t with
        | Some t => ROk (JObj [(lit "content", write_bytes c); (lit "utpTransfer", JBool utp); (lit "trace", write_trace t)])
        | None => RErr (lit "Content query trace requested but none provided.")
        end
      else ROk (JObj [(lit "content", write_bytes c); (lit "utpTransfer", JBool utp)])
  end.
(** ethportal-api portal.rs:103-120 *)
Definition read_content_info (v : json) : option (bytes * bool) :=
  match v with
  | JObj l => match field "content" l, field "utpTransfer" l with
              | Some c, Some u => match read_bytes c, read_bool u with Some c, Some u => Some (c, u) | _, _ => None end
              | _, _ => None
              end
  | _ => None
  end.
Definition read_trace_info (v : json) : option (bytes * bool * Tr) :=
  match v with
  | JObj l => match read_content_info v, field "trace" l with
              | Some p, Some t => option_map (fun t => (p, t)) (read_trace t)
              | _, _ => None
              end
  | _ => None
  end.
(** legacy_history_rpc.rs:116-129 and the same for the others; [up]: whether the task of the subnetwork answers *)
Definition via (up : bool) (r : response) : option response := if up then Some r else None.
Definition user_get_content (up : bool) (r : search_result) : reply (bytes * bool) := proxy_to_subnet read_content_info (via up (get_content false r)).
Definition user_trace_get_content (up : bool) (r : search_result) : reply (bytes * bool * Tr) := proxy_to_subnet read_trace_info (via up (get_content true r)).

(** legacy-history jsonrpc.rs:153-176, state jsonrpc.rs:172-188, beacon jsonrpc.rs:210-228 [local_content]; [stored]: what the store gives, or
    the text of its error *)
Inductive stored := SFound (b : bytes) | SMissing | SFailed (text : bytes).
Definition local_content (n : network) (s : stored) : response :=
  match s with
  | SFound b => ROk (write_bytes b)
  | SMissing =>
      match n with
      | LegacyHistory | State => RErr (lit "{" ++ quote (lit "message") ++ lit ":" ++ quote (lit "Content not found in local storage") ++ lit "}")
      | Beacon => RErr (lit "Content not found in local storage")
      end
  | SFailed m =>
      match n with
      | LegacyHistory | Beacon => RErr (lit "Database error while looking for content key in local storage: " ++ m)
      | State => RErr (lit "LocalContent failed: error while looking for content key in local storage: " ++ m)
      end
  end.
Definition user_local_content (n : network) (up : bool) (s : stored) : reply bytes := proxy_to_subnet read_bytes (via up (local_content n s)).

(** legacy-history jsonrpc.rs:199-216, beacon jsonrpc.rs:249-265: an error of the store is sent back as a text, not as an error;
    state jsonrpc.rs:270-284 *)
Definition store_reply (n : network) (put_error : option bytes) : response :=
  match put_error with
  | None => ROk (JBool true)
  | Some m => match n with LegacyHistory | Beacon => ROk (JStr m) | State => RErr (lit "Store failed: " ++ m) end
  end.
(** [decode], [encode]: of content values, for a key *)
Context {K V : Type} (key_bytes : K -> bytes) (decode : K -> bytes -> option V) (encode : V -> bytes).
(** legacy_history_rpc.rs:199-209 [store]; [put]: what the store does with key and content.  The second part is what is handed to the store. *)
Definition user_store (n : network) (up : bool) (put : K -> bytes -> option bytes) (k : K) (raw : bytes) : reply bool * option (K * bytes) :=
  match decode k raw with
  | None => (Error (EMessage (lit "Error decoding content value")), None)
  | Some v => (proxy_to_subnet read_bool (via up (store_reply n (put k (encode v)))), if up then Some (k, encode v) else None)
  end.

(** ** One peer *)
(** [Content] of a FINDCONTENT answer, after the transfer *)
Inductive found_content := FConnectionId (id : N) | FContent (b : bytes) | FEnrs (l : list enr).
Context (enr_text : enr -> bytes) (enr_read : bytes -> option enr).
Inductive find_result := FOk (c : found_content) (utp : bool) | FErr (e : overlay_error).
(** legacy-history jsonrpc.rs:249-271, beacon the same, state jsonrpc.rs:190-212 [find_content] *)
Definition find_content (n : network) (r : find_result) : response :=
  match r with
  | FOk (FConnectionId _) _ => RErr (match n with State => lit "FindContent failed: " | _ => [] end ++ lit "FindContent request returned a connection id")
  | FOk (FContent b) utp => ROk (JObj [(lit "content", write_bytes b); (lit "utpTransfer", JBool utp)])
  | FOk (FEnrs l) _ => ROk (JObj [(lit "enrs", JArr (map (fun e => JStr (enr_text e)) l))])
  | FErr e => RErr (match n with State => lit "FindContent failed: " | _ => lit "FindContent request timeout: " end ++ debug e)
  end.
(** portal.rs:88-101: the first form that fits *)
Definition read_enrs (v : json) : option (list enr) :=
  match v with
  | JArr l => fold_right (fun v acc => match v, acc with JStr s, Some r => option_map (fun e => e :: r) (enr_read s) | _, _ => None end) (Some []) l
  | _ => None
  end.
Definition read_find_info (v : json) : option (bytes * bool + list enr) :=
  match read_content_info v with
  | Some p => Some (inl p)
  | None => match v with JObj l => match field "enrs" l with Some e => option_map inr (read_enrs e) | None => None end | _ => None end
  end.
Definition user_find_content (n : network) (up : bool) (r : find_result) : reply (bytes * bool + list enr) := proxy_to_subnet read_find_info (via up (find_content n r)).

(** legacy_history_rpc.rs:157-180 [offer]: what is handed to the overlay, or the error *)
Definition max_keys_per_offer : N := 64.
Definition user_offer (items : list (K * bytes)) : reply (list (bytes * bytes)) :=
  if (1 <=? blen items) && (blen items <=? max_keys_per_offer) then
    match all_ok (map (fun p => match decode (fst p) (snd p) with Some v => Ok (key_bytes (fst p), encode v) | None => Err end) items) with
    | Ok l => Answer l
    | _ => Error (EMessage (lit "Error decoding content value"))
    end
  else Error (EMessage (lit "Invalid amount of content items")).

(** ** Pings *)
(** decode.rs:80-103 [PingExtension::decode_json]; the readers of the four structs are arguments *)
Context (read_capabilities : json -> option (option client_info * N * list ext_type)) (read_radius : json -> option N)
        (read_history_radius : json -> option (N * N)) (read_ping_error : json -> option (N * bytes)).
Definition decode_json (t : ext_type) (v : json) : option ping_extension :=
  match t with
  | Capabilities => option_map (fun x => ECapabilities (fst (fst x)) (snd (fst x)) (snd x)) (read_capabilities v)
  | BasicRadius => option_map EBasicRadius (read_radius v)
  | HistoryRadius => option_map (fun x => EHistoryRadius (fst x) (snd x)) (read_history_radius v)
  | ErrorExt => option_map (fun x => EError (fst x) (snd x)) (read_ping_error v)
  | NonSupported _ => None
  end.
(** ping_extension.rs:8-49 [parse_ping_payload] *)
Definition parse_ping_payload (n : network) (t : option ext_type) (payload : option json) : reply (option ext_type * option ping_extension) :=
  match t with
  | Some (NonSupported _) => Error (EPayloadTypeNotSupported (lit "Payload type not supported") true)
  | _ =>
      if match t with Some t => negb (is_supported n t) | None => false end then Error (EPayloadTypeNotSupported (lit "Payload type not supported") false)
      else
        match t, payload with
        | Some t, Some p => match decode_json t p with Some x => Answer (Some t, Some x) | None => Error (EPayload (lit "Failed to decode payload")) end
        | None, Some _ => Error (EPayloadTypeRequired (lit "If the 'payload' is specified the 'payloadType' must be as well"))
        | t, None => Answer (t, None)
        end
  end.
End Api.
Arguments Answer {Tr A}. Arguments Error {Tr A}.
Arguments overlay_error : clear implicits. Arguments serve_error : clear implicits. Arguments reply : clear implicits.
Arguments search_result : clear implicits. Arguments find_result : clear implicits. Arguments error_data : clear implicits.
