(** What the pages of files say. *)
From Coq Require Import String Ascii.
From Verif Require Import Base Args_Model Args_Spec FileIndex_Model.

(** The link has "mainnet-" in it *)
Definition for_mainnet (href : bytes) : Prop := exists a b, href = a ++ lit "mainnet-" ++ b.
(** Between its first and its second dash, or its end, the link has the number [n] *)
Definition numbered (href : bytes) (n : N) : Prop :=
  exists a b c, href = a ++ 45 :: b ++ c /\ ~ In 45 a /\ ~ In 45 b /\ number_text b n /\ (c = [] \/ exists d, c = 45 :: d).
(** The last link of the page for this number leads to [u] *)
Definition last_link (resolve : bytes -> option bytes) (hrefs : list bytes) (n : N) (u : bytes) : Prop :=
  exists before href after, hrefs = before ++ href :: after /\ for_mainnet href /\ numbered href n /\ resolve href = Some u /\
    forall h, In h after -> for_mainnet h -> ~ numbered h n.
(** There is a link for the number *)
Definition linked (hrefs : list bytes) (n : N) : Prop := exists h, In h hrefs /\ for_mainnet h /\ numbered h n.
(** A link that has no number at this place, or leads nowhere *)
Definition bad_link (resolve : bytes -> option bytes) (h : bytes) : Prop := for_mainnet h /\ ((forall n, ~ numbered h n) \/ resolve h = None).
