(** What is assumed of a content store by the theorems about received content, and what they
    say about effects. *)
From Verif Require Import Base OfferAccept_Model Receive_Model.

(** The store only hands out what was put into it, and drops only what it held or was just
    given. *)
Record sane_store {S} (ops : store_ops S) : Prop := {
  sane_put_get : forall s k v s' r k' v', s_put ops s k v = (s', r) ->
     s_get ops s' k' = Ok (Some v') -> s_get ops s k' = Ok (Some v') \/ (k' = k /\ v' = v);
  sane_put_drop : forall s k v s' dropped k' v', s_put ops s k v = (s', Ok dropped) ->
     In (k', v') dropped -> s_get ops s k' = Ok (Some v') \/ (k' = k /\ v' = v) }.

(** All content in the store is canonical. *)
Definition all_canonical {S} (ops : store_ops S) (validate : bytes -> bytes -> validation) (s : S) : Prop :=
  forall k v, s_get ops s k = Ok (Some v) -> validate k v = CanonicallyValid.

(** An effect that is fine: only canonical content is written or propagated; content handed
    to a lookup or poked is at least valid. *)
Definition effect_ok (validate : bytes -> bytes -> validation) (e : effect) : Prop :=
  match e with
  | EPut k v => validate k v = CanonicallyValid
  | EPropagate items => forall k v, In (k, v) items -> validate k v = CanonicallyValid
  | EPoke k v => validate k v <> Invalid
  | EReply k (Some v) => validate k v <> Invalid
  | _ => True
  end.

(** The store after a sequence of writes. *)
Definition after_puts {S} (ops : store_ops S) (s : S) (l : list (bytes * bytes)) : S :=
  fold_left (fun s kv => fst (s_put ops s (fst kv) (snd kv))) l s.
