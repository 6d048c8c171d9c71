(** Vocabulary for statements about pings. *)
From Verif Require Import Base.
From Verif Require Import Wire_Model Wire_Spec KBucket_Model Ping_Model.

(** A client description that can be written as name/version-commit/os-arch/language and read
    without ambiguity. *)
Definition readable (i : client_info) : Prop :=
  (forall part, In part [ci_name i; ci_version i; ci_commit i; ci_os i; ci_arch i; ci_lang i] -> ~ In slash part /\ utf8 part = true) /\
  ~ In dash (ci_commit i) /\ ~ In dash (ci_os i) /\ ~ In dash (ci_arch i).
Definition short (i : client_info) : Prop := blen (print_info i) <= 200.

(** Values that fit the types of the wire format. *)
Definition value_ok (v : ping_extension) : Prop :=
  match v with
  | ECapabilities i r c =>
      (forall i', i = Some i' -> readable i' /\ short i') /\ r < 2 ^ 256 /\ blen c <= 400 /\ Forall ext_ok c
  | EBasicRadius r => r < 2 ^ 256
  | EHistoryRadius r n => r < 2 ^ 256 /\ n < 65536
  | EError c m => c < 65536 /\ blen m <= 300
  end.
(** A node whose description of itself is in order. *)
Definition sound (me : self) : Prop :=
  readable (me_info me) /\ short (me_info me) /\ me_radius me < 2 ^ 256 /\ me_seq me < 2 ^ 64.
(** The node [id] is known in a table, with these properties. *)
Definition known (t : table) (id : N) (n : node) : Prop := present_or_pending id t = Some n.
Definition says_error (E : Type) (m : message E) : Prop := match m with Pong _ t _ => t = ErrorExt | _ => False end.
