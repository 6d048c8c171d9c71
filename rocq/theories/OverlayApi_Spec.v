(** Vocabulary for statements about the calls of an overlay network. *)
From Verif Require Import Base.
From Verif Require Import Wire_Model KBucket_Model Ping_Model OverlayApi_Model.

(** A list of distances one may ask for. *)
Definition valid_distances (ds : list N) : Prop :=
  ds <> [] /\ blen ds <= 256 /\ (forall d, In d ds -> d <= 256) /\ NoDup ds.

(** Which pings may be asked for: of a type, with a payload of that type or without one if the node
    has a payload of its own for it. *)
Definition ping_allowed (t : option ext_type) (x : option ping_extension) : Prop :=
  match x with
  | Some v => t = Some (extension_type v)
  | None => match t with None | Some Capabilities | Some BasicRadius | Some HistoryRadius => True | _ => False end
  end.

(** The requests submitted in a history, in order. *)
Fixpoint submitted (es : list event) : list active :=
  match es with
  | [] => []
  | Submit c id dest r :: es => {| a_id := id; a_dest := dest; a_caller := c; a_request := r |} :: submitted es
  | Finish _ :: es => submitted es
  end.

Section Bytes.
Context (enr_rlp : enr -> bytes) (dec_nodes dec_content : bytes -> outcome enr) (peer : N -> enr -> bytes -> option bytes).
(** A response message, read from the bytes [b]. *)
Definition reads_as (b : bytes) (m : message enr) : Prop :=
  decode_message dec_nodes dec_content b = Ok m /\ is_response m = true.
(** What must happen when request [a] is over: its caller, and nobody else, gets the answer of the
    node the request went to, or an error if no readable answer came; the answer is then processed
    as the answer of that node to that request. *)
Definition settles (a : active) (out : list effect) : Prop :=
  let answer := peer (a_id a) (a_dest a) (encode_message enr_rlp (request_message (a_request a))) in
  (exists b m, answer = Some b /\ reads_as b m /\
     out = match a_caller a with Some c => [Answer c (Ok m)] | None => [] end ++ [Processed (a_dest a) (a_request a) m]) \/
  ((forall b m, answer = Some b -> ~ reads_as b m) /\
   out = match a_caller a with Some c => [Answer c Err] | None => [] end ++ [Failed (a_dest a)]).
End Bytes.

(** The newest of a list of records. *)
Definition newest (e : enr) (l : list enr) : Prop := In e l /\ forall x, In x l -> enr_seq x <= enr_seq e.
