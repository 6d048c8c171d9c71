(** Pings: the payloads in /repo/crates/ethportal-api/src/types/ping_extensions/, what is sent and
    answered in /repo/crates/portalnet/src/overlay/service/ping/mod.rs, and the part of
    overlay/service/manager.rs around it.  A Rust string is its UTF-8 bytes. *)
From Verif Require Import Base.
From Verif Require Import Ssz_Model Wire_Model Keys_Model StateContent_Model KBucket_Model.

(** ** Strings *)
Definition cont (x : N) : bool := (128 <=? x) && (x <=? 191).
(** [String::from_utf8]: whether it succeeds *)
Fixpoint utf8 (b : bytes) : bool :=
  match b with
  | [] => true
  | x :: r =>
      if x <? 128 then utf8 r
      else if (194 <=? x) && (x <=? 223) then
        match r with y :: r => cont y && utf8 r | _ => false end
      else if (224 <=? x) && (x <=? 239) then
        match r with
        | y :: z :: r =>
            cont y && cont z && (negb (x =? 224) || (160 <=? y)) && (negb (x =? 237) || (y <=? 159)) && utf8 r
        | _ => false
        end
      else if (240 <=? x) && (x <=? 244) then
        match r with
        | y :: z :: w :: r =>
            cont y && cont z && cont w && (negb (x =? 240) || (144 <=? y)) && (negb (x =? 244) || (y <=? 143)) && utf8 r
        | _ => false
        end
      else false
  end.
(** [str::split(c)] *)
Fixpoint split (c : N) (s : bytes) : list bytes :=
  match s with
  | [] => [[]]
  | x :: r =>
      if x =? c then [] :: split c r
      else match split c r with h :: t => (x :: h) :: t | [] => [[x]] end
  end.
(** [str::split_once(c)], [str::rsplit_once(c)] *)
Fixpoint split_once (c : N) (s : bytes) : option (bytes * bytes) :=
  match s with
  | [] => None
  | x :: r => if x =? c then Some ([], r) else option_map (fun p => (x :: fst p, snd p)) (split_once c r)
  end.
Definition rsplit_once (c : N) (s : bytes) : option (bytes * bytes) :=
  option_map (fun p => (rev (snd p), rev (fst p))) (split_once c (rev s)).

(** ** extensions/type_0.rs *)
(** type_0.rs:137-147 *)
Record client_info := { ci_name : bytes; ci_version : bytes; ci_commit : bytes; ci_os : bytes; ci_arch : bytes; ci_lang : bytes }.
Definition slash : N := 47.
Definition dash : N := 45.
(** type_0.rs:162-175 [Display for ClientInfo] *)
Definition print_info (i : client_info) : bytes :=
  ci_name i ++ slash :: ci_version i ++ dash :: ci_commit i ++ slash :: ci_os i ++ dash :: ci_arch i ++ slash :: ci_lang i.
(** type_0.rs:177-217 [FromStr for ClientInfo] *)
Definition parse_info (s : bytes) : outcome client_info :=
  if 200 <? blen s then Err
  else
    match split slash s with
    | [p0; p1; p2; p3] =>
        match rsplit_once dash p1 with
        | Some (version, commit) =>
            match split dash p2 with
            | [os; arch] =>
                Ok {| ci_name := p0; ci_version := version; ci_commit := commit; ci_os := os; ci_arch := arch; ci_lang := p3 |}
            | _ => Err
            end
        | None => Err
        end
    | _ => Err
    end.

(** decode.rs:15-22 [PingExtension] with the structs of type_0.rs:24-30, type_1.rs:7-11,
    type_2.rs:7-12 and type_65535.rs:12-17 *)
Inductive ping_extension :=
| ECapabilities (info : option client_info) (radius : N) (capabilities : list ext_type)
| EBasicRadius (radius : N)
| EHistoryRadius (radius count : N)
| EError (code : N) (message : bytes).
(** decode.rs:24-33, 97-104 *)
Definition extension_type (v : ping_extension) : ext_type :=
  match v with
  | ECapabilities _ _ _ => Capabilities
  | EBasicRadius _ => BasicRadius
  | EHistoryRadius _ _ => HistoryRadius
  | EError _ _ => ErrorExt
  end.
Definition info_string (i : option client_info) : bytes := match i with Some i => print_info i | None => [] end.
(** type_0.rs:76-102 and the derived encoders.  [VariableList::from] cuts what is too long. *)
Definition encode_extension (v : ping_extension) : bytes :=
  match v with
  | ECapabilities i r c =>
      encode_container [PVar (firstn 200 (info_string i)); PFix (le_bytes 32 r); PVar (concat (map (fun t => le_bytes 2 (ext_u16 t)) c))]
  | EBasicRadius r => encode_container [PFix (le_bytes 32 r)]
  | EHistoryRadius r n => encode_container [PFix (le_bytes 32 r); PFix (le_bytes 2 n)]
  | EError c m => encode_container [PFix (le_bytes 2 c); PVar m]
  end.
(** decode.rs:35-44 and portal_wire.rs:114-127: as a payload *)
Definition payload_of (v : ping_extension) : bytes := decode_custom_payload (encode_extension v).
(** type_0.rs:104-135 *)
Definition decode_capabilities (b : bytes) : outcome ping_extension :=
  obind (container3 None (Some 32) None b) (fun x =>
  obind (decode_bytelist 200 (fst (fst x))) (fun s =>
  obind (decode_uint 32 (snd (fst x))) (fun r =>
  obind (obind (decode_fixed_list 2 (Some 400) (snd x)) (map_o (decode_uint 2))) (fun c =>
  obind (if utf8 s then Ok s else Err) (fun s =>
  obind (match s with [] => Ok None | _ => omap Some (parse_info s) end) (fun i =>
  Ok (ECapabilities i r (map ext_of_u16 c)))))))).
(** decode.rs:47-75 [decode_ssz] *)
Definition decode_extension (t : ext_type) (b : bytes) : outcome ping_extension :=
  match t with
  | Capabilities => decode_capabilities b
  | BasicRadius => obind (container1 (Some 32) b) (fun x => omap EBasicRadius (decode_uint 32 x))
  | HistoryRadius =>
      obind (container2 (Some 32) (Some 2) b) (fun x =>
      obind (decode_uint 32 (fst x)) (fun r => omap (EHistoryRadius r) (decode_uint 2 (snd x))))
  | ErrorExt =>
      obind (container2 (Some 2) None b) (fun x =>
      obind (decode_uint 2 (fst x)) (fun c => omap (EError c) (decode_bytelist 300 (snd x))))
  | NonSupported _ => Err
  end.

(** ** Which extensions a network uses *)
Inductive network := LegacyHistory | Beacon | State.
(** ping_extensions/consts.rs:9-23 *)
Definition supported (n : network) : list ext_type :=
  match n with
  | LegacyHistory => [Capabilities; HistoryRadius; ErrorExt]
  | Beacon | State => [Capabilities; BasicRadius; ErrorExt]
  end.
(** [BASE_EXTENSIONS] in subnetworks/{legacy-history,beacon,state}/src/ping_extensions.rs:13 *)
Definition base_extensions (n : network) : list ext_type :=
  match n with LegacyHistory => [HistoryRadius] | Beacon | State => [BasicRadius] end.
(** derived [PartialEq] of [PingExtensionType] *)
Definition same_ext (a b : ext_type) : bool :=
  match a, b with
  | Capabilities, Capabilities | BasicRadius, BasicRadius | HistoryRadius, HistoryRadius | ErrorExt, ErrorExt => true
  | NonSupported n, NonSupported m => n =? m
  | _, _ => false
  end.
(** portalnet/src/overlay/ping_extensions.rs:5-7 *)
Definition is_supported (n : network) (t : ext_type) : bool := existsb (same_ext t) (supported n).
(** [latest_mutually_supported_base_extension], ping_extensions.rs:17-27 of each network *)
Definition latest_base (n : network) (listed : list ext_type) : option ext_type :=
  find (fun t => existsb (same_ext t) listed) (base_extensions n).

(** ** The service *)
(** What a node says of itself. *)
Record self := { me_id : N; me_net : network; me_info : client_info; me_radius : N; me_seq : N }.
Section Node.
Context {E : Type}.
Variable me : self.

(** service/ping/mod.rs:246-251 *)
Definition create_capabilities : ping_extension := ECapabilities (Some (me_info me)) (me_radius me) (firstn 400 (supported (me_net me))).
(** service/ping/mod.rs:48-54 [create_pong] *)
Definition create_pong (t : ext_type) (v : ping_extension) : message E := Pong (me_seq me) t (payload_of v).
(** service/ping/mod.rs:57-120 [handle_ping]; [unreachable!] panics. *)
Definition handle_ping (t : ext_type) : outcome (message E) :=
  if negb (is_supported (me_net me) t) then Ok (create_pong ErrorExt (EError 0 []))
  else
    match t with
    | Capabilities => Ok (create_pong t create_capabilities)
    | BasicRadius => Ok (create_pong t (EBasicRadius (me_radius me)))
    | HistoryRadius => Ok (create_pong t (EHistoryRadius (me_radius me) 0))
    | ErrorExt => Ok (create_pong t (EError 3 []))
    | NonSupported _ => Panic
    end.
(** service/ping/mod.rs:253-275 [handle_base_extension] *)
Definition handle_base_extension (t : ext_type) : ping_extension :=
  match t with
  | BasicRadius => EBasicRadius (me_radius me)
  | HistoryRadius => EHistoryRadius (me_radius me) 0
  | _ => create_capabilities
  end.
(** service/ping/mod.rs:280-313 [ping_node]; [known] is what the node has listed. *)
Definition choose_ping (known : option (list ext_type)) : ping_extension :=
  match option_map (latest_base (me_net me)) known with
  | Some (Some t) => handle_base_extension t
  | _ => create_capabilities
  end.
Definition ping_of (v : ping_extension) : message E := Ping (me_seq me) (extension_type v) (payload_of v).
Definition ping_node (n : node) : message E := ping_of (choose_ping (option_map (map ext_of_u16) (n_capabilities n))).

(** service/ping/mod.rs:137-181, 201-242: the extension of a received message, [None] if it is
    ignored *)
Definition usable (t : ext_type) (payload : bytes) : outcome (option extension) :=
  match decode_extension t payload with
  | Panic => Panic
  | Err => Ok None
  | Ok v =>
      if negb (is_supported (me_net me) (extension_type v)) then Ok None
      else
        Ok (match v with
            | ECapabilities _ r c => Some (XCapabilities r (map ext_u16 c))
            | EBasicRadius r => Some (XBasicRadius r)
            | EHistoryRadius r n => Some (XHistoryRadius r n)
            | EError _ _ => None
            end)
  end.
(** manager.rs:456-480 [process_request] for an incoming ping: the activity is registered, the
    reply is made, then the payload is used.  [f1] and [f2] are what the table does. *)
Definition receive_ping (st : service) (source seq : N) (t : ext_type) (payload : bytes) (cached : option enr) (f1 f2 : fate)
  : outcome (service * message E) :=
  let st := fst (register_activity (me_id me) st source cached f1) in
  obind (handle_ping t) (fun pong =>
  obind (usable t payload) (fun x =>
  Ok (fst (process_ping (me_id me) st source seq x f2), pong))).
(** manager.rs:623-687 [process_response] for a pong *)
Definition receive_pong (st : service) (source : enr) (seq : N) (t : ext_type) (payload : bytes) (f1 f2 : fate) : outcome service :=
  let st := fst (process_response (me_id me) st source f1) in
  obind (usable t payload) (fun x => Ok (fst (process_ping (me_id me) st (enr_id source) seq x f2))).

(** A request and a response as bytes: protocol.rs:190-210 [process_one_request] and
    manager.rs:526-552 [send_talk_req].  Messages other than pings and pongs are modelled
    elsewhere. *)
Context (enr_rlp : E -> bytes) (dec_nodes dec_content : bytes -> outcome E).
Definition on_request (st : service) (source : N) (b : bytes) (cached : option enr) (f1 f2 : fate) : outcome (service * bytes) :=
  obind (decode_message dec_nodes dec_content b) (fun m =>
    match m with
    | Ping seq t p =>
        obind (receive_ping st source seq t p cached f1 f2) (fun r => Ok (fst r, encode_message enr_rlp (snd r)))
    | _ => Err
    end).
Definition on_response (st : service) (source : enr) (b : bytes) (f1 f2 : fate) : outcome service :=
  obind (decode_message dec_nodes dec_content b) (fun m =>
    match m with Pong seq t p => receive_pong st source seq t p f1 f2 | _ => Err end).
End Node.
