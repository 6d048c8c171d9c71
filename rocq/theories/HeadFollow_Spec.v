(** Words for the property about what the head of the chain learns from the light client. *)
From Verif Require Import Base LightClient_Model HeadFollow_Model.

(** The slot an update attests, and the slot it says is final (0 if it says none). *)
Definition attests (u : update) : N :=
  match u with FullUpdate a _ _ _ _ _ _ _ => b_slot a | FinalityUpdate a _ _ _ _ _ => b_slot a | OptimisticUpdate a _ _ _ => b_slot a end.
Definition finalizes (u : update) : N :=
  match u with FullUpdate _ _ _ f _ _ _ _ => b_slot f | FinalityUpdate _ f _ _ _ _ => b_slot f | OptimisticUpdate _ _ _ _ => 0 end.
(** The header [h] is attested, or said to be final, by an update. *)
Definition attested_by (h : bheader) (u : update) : Prop :=
  match u with FullUpdate a _ _ _ _ _ _ _ => h = a | FinalityUpdate a _ _ _ _ _ => h = a | OptimisticUpdate a _ _ _ => h = a end.
Definition final_by (h : bheader) (u : update) : Prop :=
  match u with FullUpdate _ _ _ f _ _ _ _ => h = f | FinalityUpdate _ f _ _ _ _ => h = f | OptimisticUpdate _ _ _ _ => False end.
(** The members of the committee that signed. *)
Definition votes (u : update) : N :=
  let bs := match u with FullUpdate _ _ _ _ _ bs _ _ => bs | FinalityUpdate _ _ _ bs _ _ => bs | OptimisticUpdate _ bs _ _ => bs end in
  N.of_nat (count_occ Bool.bool_dec bs true).
(** The bits of a signature are those of 512 members. *)
Definition sized (u : update) : Prop := votes u <= 512.
(** Of two updates of one kind in a list, the later attests no earlier slot and finalizes no earlier slot. *)
Definition in_order (l : list update) : Prop :=
  forall l1 u l2 v l3, l = l1 ++ u :: l2 ++ v :: l3 -> kind_of u = kind_of v -> attests u <= attests v /\ finalizes u <= finalizes v.
(** The reader has seen every channel. *)
Definition all_seen (n : node) : Prop := forall k, changed (chan n k) = false.
(** The numbers of signers a client remembers are those of a committee of 512. *)
Definition counts (c : client) : Prop := previous_max (lc_store c) <= 512 /\ current_max (lc_store c) <= 512.
