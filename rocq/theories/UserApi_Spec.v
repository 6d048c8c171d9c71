(** What is said about the replies to a user. *)
From Coq Require Import ZArith String Ascii.
From Verif Require Import Base.
From Verif Require Import Hex_Model Ping_Model Args_Model UserApi_Model.

Section Spec.
Context {Tr : Type}.
(** The reply is an error with this code *)
Definition fails_with {A} (r : reply Tr A) (code : Z) : Prop := exists e, r = Error e /\ fst (fst (error_object e)) = code.
(** The reply is an error with this code, text and data *)
Definition fails {A} (r : reply Tr A) (code : Z) (text : bytes) (data : error_data Tr) : Prop := exists e, r = Error e /\ error_object e = (code, text, data).
(** What is taken of serde_json: a text written is read back, and what is read as an object starts like one (or like a list, or blank) *)
Definition json_errors (parse_error : bytes -> option (bytes * option Tr)) (trace_text : option Tr -> bytes) : Prop :=
  (forall m t, utf8 m = true -> parse_error (not_found_text trace_text m t) = Some (m, t)) /\
  (forall c r, parse_error (c :: r) <> None -> In c [9; 10; 13; 32; 91; 123]).
(** The messages of searches of the overlay that end without content: find_content.rs:488-493, 741-746 *)
Definition search_message (m : bytes) : Prop :=
  m = lit "Unable to locate content on the network before timeout" \/
  m = lit "Unable to locate content on the network: no connected nodes in the routing table".
(** JSON-RPC 2.0, section 5.1: the codes from -32768 to -32000 are its own; -32099 to -32000 are left to servers, -32601 says that there is no such method *)
Definition reserved_code (c : Z) : Prop := (-32768 <= c <= -32000)%Z.
Definition server_code (c : Z) : Prop := (-32099 <= c <= -32000)%Z.
Definition no_method_code : Z := (-32601)%Z.
(** The text an error came with *)
Definition reason (e : overlay_error Tr) : bytes :=
  match e with
  | ChannelFailure m | InvalidRequest m | FailedValidation m | Failure m | Discv5Error m | AcceptError m | OfferError m | UtpError m | ContentNotFound m _ _ => m
  | InvalidResponse | EmptyResponse | DecodeError | Timeout | InvalidRemoteDiscv5Packet => []
  end.
Definition same_kind (e f : overlay_error Tr) : Prop :=
  match e, f with
  | ChannelFailure _, ChannelFailure _ | InvalidRequest _, InvalidRequest _ | InvalidResponse, InvalidResponse | FailedValidation _, FailedValidation _
  | EmptyResponse, EmptyResponse | DecodeError, DecodeError | Timeout, Timeout | Failure _, Failure _ | Discv5Error _, Discv5Error _ | AcceptError _, AcceptError _
  | OfferError _, OfferError _ | UtpError _, UtpError _ | InvalidRemoteDiscv5Packet, InvalidRemoteDiscv5Packet | ContentNotFound _ _ _, ContentNotFound _ _ _ => True
  | _, _ => False
  end.
End Spec.
(** RFC 8259, section 7: the rest of a string after its first quotation mark, and what follows it; control characters are not allowed, and of the escapes by number only those up to 255 *)
Fixpoint json_rest (s : bytes) : option (bytes * bytes) :=
  match s with
  | [] => None
  | c :: r =>
      if c =? 34 then Some ([], r)
      else if c <? 32 then None
      else if c =? 92 then
        match r with
        | [] => None
        | d :: r' =>
            if d =? 117 then
              match r' with
              | z :: z' :: a :: b :: r'' =>
                  if (z =? 48) && (z' =? 48) then
                    match hex_val a, hex_val b with Some x, Some y => option_map (fun p => (x * 16 + y :: fst p, snd p)) (json_rest r'') | _, _ => None end
                  else None
              | _ => None
              end
            else match (if d =? 98 then Some 8 else if d =? 116 then Some 9 else if d =? 110 then Some 10 else if d =? 102 then Some 12 else if d =? 114 then Some 13
                        else if (d =? 34) || (d =? 92) || (d =? 47) then Some d else None) with
                 | Some x => option_map (fun p => (x :: fst p, snd p)) (json_rest r')
                 | None => None
                 end
        end
      else option_map (fun p => (c :: fst p, snd p)) (json_rest r)
  end.
Definition json_string (s : bytes) : option (bytes * bytes) := match s with c :: r => if c =? 34 then json_rest r else None | [] => None end.
