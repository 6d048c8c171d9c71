(** What is in a bucket. *)
From Verif Require Import Base Upload_Model.

(** The ids of uploads are used once *)
Definition ids_fresh (b : bucket) : Prop := forall u, In u (uploads b) -> up_id u < next_id b.
(** Every name but this one has what it had *)
Definition same_but (key : bytes) (b b' : bucket) : Prop := forall k, k <> key -> object b' k = object b k.
(** The file as it was when its length was asked for *)
Definition file_then (size : N) (content : bytes) : bytes := firstn (N.to_nat size) content.
(** The largest file that can be uploaded: 10000 parts of 100 MiB *)
Definition largest_file : N := 10000 * (100 * 1024 * 1024).
