(** What happens to content that arrives at the node:
    /repo/crates/portalnet/src/overlay/service/offer.rs:185-255, 439-626 and
    /repo/crates/portalnet/src/overlay/service/find_content.rs:503-618.
    Simplification: each arrival is handled in one step.  Handlers run concurrently in the
    code, but what is proved per step only relies on the store holding canonical content,
    which every single store access preserves. *)
From Verif Require Import Base Payload_Model OfferAccept_Model.

(** crates/validation/src/validator.rs:8-33 [ValidationResult] *)
Inductive validation := CanonicallyValid | Valid | Invalid.
Definition is_canonically_valid (r : validation) : bool := match r with CanonicallyValid => true | _ => false end.
Definition is_valid (r : validation) : bool := match r with Invalid => false | _ => true end.

(** crates/storage/src/lib.rs:35-69 [ContentStore], as far as it is used here: an arbitrary
    state with its operations. *)
Record store_ops (S : Type) := mk_ops {
  s_get : S -> bytes -> outcome (option bytes);
  s_should : S -> bytes -> outcome decision;
  s_put : S -> bytes -> bytes -> S * outcome (list (bytes * bytes)) }.
Arguments s_get {S}. Arguments s_should {S}. Arguments s_put {S}. Arguments mk_ops {S}.

(** What the node does, in order. *)
Inductive effect :=
| EPut (k v : bytes)                      (* written to the store *)
| EPropagate (items : list (bytes * bytes)) (* offered to interested peers *)
| EPoke (k v : bytes)                     (* offered to peers close to the key after a lookup *)
| EReply (k : bytes) (v : option bytes)   (* handed to the lookup; [None]: rejected *)
| ERemoveKey (k : bytes)                  (* taken out of the accept queue *)
| EFallback (k : bytes).                  (* fetched again from a fallback peer *)

Section Receive.
Context {S : Type} (ops : store_ops S) (validate : bytes -> bytes -> validation) (gossip_dropped disable_poke : bool).

(** offer.rs:574-626 [store_content]: the new store, the write if there was one, and what is
    to be propagated. *)
Definition store_content (s : S) (k v : bytes) : S * list effect * list (bytes * bytes) :=
  match s_should ops s k with
  | Ok Store =>
      let (s', r) := s_put ops s k v in
      match r with
      | Ok dropped => (s', [EPut k v], (k, v) :: (if gossip_dropped then dropped else []))
      | _ => (s', [EPut k v], [(k, v)])
      end
  | _ => (s, [], [(k, v)])
  end.

(** offer.rs:231-242: the loop over the validated items: effects, things to propagate, keys
    that failed. *)
Fixpoint store_all (s : S) (items : list (bytes * bytes)) : S * list effect * list (bytes * bytes) * list bytes :=
  match items with
  | [] => (s, [], [], [])
  | (k, v) :: rest =>
      if is_canonically_valid (validate k v) then
        let '(s1, e1, p1) := store_content s k v in
        let '(s2, e2, p2, f2) := store_all s1 rest in
        (s2, ERemoveKey k :: e1 ++ e2, p1 ++ p2, f2)
      else
        let '(s2, e2, p2, f2) := store_all s rest in
        (s2, e2, p2, k :: f2)
  end.

(** offer.rs:185-255: the task that receives an accepted transfer; [data] is [None] if the
    transfer failed. *)
Definition receive_offer (s : S) (accepted : list bytes) (data : option bytes) : S * list effect :=
  match data with
  | None => (s, map EFallback accepted)
  | Some d =>
      match decode_payload accepted d with
      | Ok items =>
          let '(s', effs, prop, failed) := store_all s items in
          (s', effs ++ map EFallback failed ++ [EPropagate prop])
      | _ => (s, map EFallback accepted)
      end
  end.

(** offer.rs:443-460: what a failed key means for the accept queue: [true] if the key is taken
    out of the queue or moved to another peer ([process_failed_key] is called). *)
Definition fallback_releases (affected_by_radius : bytes -> bool) (k : bytes) : bool :=
  affected_by_radius k.

(** offer.rs:511-531, the end of [single_fallback_find_content]: [value] is what the
    fallback peer sent, [None] if that failed. *)
Definition receive_fallback (s : S) (k : bytes) (value : option bytes) : S * list effect :=
  match value with
  | None => (s, [])
  | Some v =>
      if is_canonically_valid (validate k v) then
        let '(s', effs, prop) := store_content s k v in
        (s', effs ++ [EPropagate prop])
      else (s, [])
  end.

(** find_content.rs:503-618 [process_received_content] *)
Definition receive_lookup (s : S) (k v : bytes) : S * list effect :=
  match s_get ops s k with
  | Ok (Some local) => (s, EReply k (Some local) :: (if disable_poke then [] else [EPoke k local]))
  | _ =>
      let r := validate k v in
      if negb (is_valid r) then (s, [EReply k None])
      else
        let '(s', effs) :=
          if is_canonically_valid r && match s_should ops s k with Ok Store => true | _ => false end then
            let (s', pr) := s_put ops s k v in
            match pr with
            | Ok dropped => (s', [EPut k v; EPropagate ((k, v) :: (if gossip_dropped then dropped else []))])
            | _ => (s', [EPut k v])
            end
          else (s, []) in
        (s', effs ++ EReply k (Some v) :: (if disable_poke then [] else [EPoke k v]))
  end.

(** Everything that can arrive, in any order. *)
Inductive arrival :=
| AOffer (accepted : list bytes) (data : option bytes)
| AFallback (k : bytes) (value : option bytes)
| ALookup (k v : bytes).
Definition receive (s : S) (a : arrival) : S * list effect :=
  match a with
  | AOffer acc d => receive_offer s acc d
  | AFallback k v => receive_fallback s k v
  | ALookup k v => receive_lookup s k v
  end.
Fixpoint receive_all (s : S) (l : list arrival) : S * list effect :=
  match l with
  | [] => (s, [])
  | a :: l' => let (s1, e1) := receive s a in let (s2, e2) := receive_all s1 l' in (s2, e1 ++ e2)
  end.
End Receive.
