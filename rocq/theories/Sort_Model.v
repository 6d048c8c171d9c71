(** Sorting, as done by SQL's ORDER BY and by [slice::sort_by]: insertion sort by a boolean
    comparison.  It is stable, like [slice::sort_by]; for SQL the order among equals is
    arbitrary, which models of queries express by an arbitrary tie-breaking key. *)
From Verif Require Import Base.

Fixpoint sort_insert {A} (le : A -> A -> bool) (x : A) (l : list A) : list A :=
  match l with
  | [] => [x]
  | y :: l' => if le x y then x :: l else y :: sort_insert le x l'
  end.
Fixpoint sort_by {A} (le : A -> A -> bool) (l : list A) : list A :=
  match l with [] => [] | x :: l' => sort_insert le x (sort_by le l') end.

Section S.
Context {A : Type} (le : A -> A -> bool).
Hypothesis total : forall x y, le x y = true \/ le y x = true.
Hypothesis trans : forall x y z, le x y = true -> le y z = true -> le x z = true.

Lemma sort_insert_perm x l : Permutation (x :: l) (sort_insert le x l).
Proof.
  induction l as [|y l IH]; [reflexivity|]. cbn. destruct (le x y); [reflexivity|].
  rewrite perm_swap. constructor. exact IH.
Qed.
Lemma sort_by_perm l : Permutation l (sort_by le l).
Proof. induction l as [|x l IH]; [constructor|]. cbn. rewrite <- sort_insert_perm. constructor. exact IH. Qed.

Definition le_rel x y := le x y = true.
Lemma sort_insert_sorted x l : StronglySorted le_rel l -> StronglySorted le_rel (sort_insert le x l).
Proof.
  induction 1 as [|y l Hs IH Hf]; cbn; [repeat constructor|].
  destruct (le x y) eqn:E.
  - constructor; [constructor; assumption|]. constructor; [exact E|].
    rewrite Forall_forall in *. intros z Hz. eapply trans; [exact E|]. apply Hf, Hz.
  - constructor; [exact IH|]. rewrite Forall_forall in *. intros z Hz.
    apply (Permutation_in _ (Permutation_sym (sort_insert_perm x l))) in Hz. destruct Hz as [<-|Hz]; [|apply Hf, Hz].
    destruct (total x y); [congruence|assumption].
Qed.
Lemma sort_by_sorted l : StronglySorted le_rel (sort_by le l).
Proof. induction l as [|x l IH]; cbn; [constructor|]. apply sort_insert_sorted, IH. Qed.
End S.

Lemma sort_by_length {A} (le : A -> A -> bool) l : length (sort_by le l) = length l.
Proof. symmetry. apply Permutation_length, sort_by_perm. Qed.
Lemma sort_by_In {A} (le : A -> A -> bool) l x : In x (sort_by le l) <-> In x l.
Proof. split; apply Permutation_in; [symmetry|]; apply sort_by_perm. Qed.

(** Sorted lists: everything in a prefix is below everything in the rest. *)
Lemma strongly_sorted_app {A} (R : A -> A -> Prop) l1 : forall l2, StronglySorted R (l1 ++ l2) ->
  StronglySorted R l1 /\ StronglySorted R l2 /\ forall x y, In x l1 -> In y l2 -> R x y.
Proof.
  induction l1 as [|a l1 IH]; intros l2 H; cbn in *.
  - split; [constructor|]. split; [exact H|]. intros ? ? [].
  - inversion H as [|? ? Hs Hf]; subst. destruct (IH _ Hs) as (S1 & S2 & C).
    rewrite Forall_app in Hf. destruct Hf as [F1 F2]. split; [constructor; assumption|]. split; [assumption|].
    intros x y [<-|Hx] Hy; [|auto]. rewrite Forall_forall in F2. apply F2, Hy.
Qed.

(** A strictly ordered permutation is unique. *)
Lemma strongly_sorted_unique {A} (R : A -> A -> Prop) (l1 l2 : list A) :
  (forall x y, In x l1 -> In y l1 -> R x y -> R y x -> x = y) ->
  StronglySorted R l1 -> StronglySorted R l2 -> Permutation l1 l2 -> l1 = l2.
Proof.
  intros Anti H1. revert l2. induction H1 as [|a l1 Hs IH Hf]; intros l2 H2 P.
  - apply Permutation_nil in P. congruence.
  - destruct l2 as [|b l2]; [symmetry in P; apply Permutation_nil in P; discriminate|].
    inversion H2 as [|? ? Hs2 Hf2]; subst.
    assert (a = b).
    { assert (Ib : In b (a :: l1)) by (apply (Permutation_in b (Permutation_sym P)); left; reflexivity).
      assert (Ia : In a (b :: l2)) by (apply (Permutation_in a P); left; reflexivity).
      destruct Ib as [E|Ib]; [exact E|]. destruct Ia as [E|Ia]; [congruence|].
      rewrite Forall_forall in Hf, Hf2. apply Anti; [left; reflexivity|right; exact Ib|apply Hf, Ib|apply Hf2, Ia]. }
    subst b. f_equal. apply IH; [|assumption|].
    + intros x y Hx Hy. apply Anti; right; assumption.
    + apply Permutation_cons_inv in P. exact P.
Qed.
