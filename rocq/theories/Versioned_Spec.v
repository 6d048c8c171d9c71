(** Vocabulary for stores and their versions. *)
From Coq Require Import String.
From Verif Require Import Base Distance_Model Store_Model Versioned_Model.
Open Scope N_scope.

(** The database says, once, that content of type [t] is in a store called [name]. *)
Definition says (d : db) (t : content_type) (name : string) : Prop :=
  NoDup (map fst (info d)) /\ In (type_name t, name) (info d).
(** It says nothing about content of type [t]. *)
Definition silent (d : db) (t : content_type) : Prop := ~ In (type_name t) (map fst (info d)).

(** What a store of ephemeral content should hold: the content is kept under its id, the
    first content under an id stays, content of a slot that no database can hold is refused. *)
Definition content := option (bytes * bytes).
Definition remember (content_id : bytes -> bytes) (m : bytes -> content) (o : e_op) : bytes -> content :=
  match o with
  | EInsert k v _ slot =>
      fun id => if (slot <? 2 ^ 63) && beqb id (content_id k)
                then match m id with Some x => Some x | None => Some (k, v) end else m id
  | EDelete i => fun id => if beqb id i then None else m id
  | EReopen => m
  end.
Definition remembered (content_id : bytes -> bytes) (ops : list e_op) : bytes -> content :=
  fold_left (remember content_id) ops (fun _ => None).

(** What the entries occupy. *)
Definition occupied (l : list erow) : N :=
  fold_right (fun r a => blen (e_id r) + blen (e_key r) + blen (e_value r) + a) 0 l.

(** No content was put while it was there, since the store was last opened. *)
Fixpoint fresh (content_id : bytes -> bytes) (m : bytes -> content) (ops : list e_op) : Prop :=
  match ops with
  | [] => True
  | o :: ops' =>
      match o with EInsert k _ _ _ => m (content_id k) = None | EReopen => False | EDelete _ => True end /\
      fresh content_id (remember content_id m o) ops'
  end.

(** Puts of content in a history. *)
Definition put_ephemeral (t : content_type) (k v : bytes) (l : list event) : Prop :=
  exists type_ slot, In (VEphemeral t (EInsert k v type_ slot)) l.
Definition put_indexed (t : content_type) (k v : bytes) (l : list event) : Prop :=
  (exists ties durs, In (VIndexed t (OInsert ties durs k v)) l) \/
  (exists ties durs n c ties' durs', In (VIndexed t (OCrash ties durs k v n c ties' durs')) l).
