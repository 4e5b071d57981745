(** Specification of an indexed max-heap (independent of the algorithms). *)
From Verif Require Import Base Order Sort_Spec.
Open Scope nat_scope.

(** Every entry among the first n (except the root) has priority at most its parent's; the parent
    of position k is (k-1)/2. *)
Definition is_max_heap {V} (ltb : V -> V -> bool) (values : list V) (ind : list nat) (n : nat) : Prop :=
  forall k vk vp, 0 < k < n -> value_at values ind k = Some vk ->
    value_at values ind ((k - 1) / 2) = Some vp -> ltb vp vk = false.

(** rev is the inverse of ind on the first n heap positions, and all of them hold valid slots. *)
Definition inverse_tables {V} (values : list V) (ind rev : list nat) (n : nat) : Prop :=
  forall k, k < n -> exists a, ind !! k = Some a /\ rev !! a = Some k /\ a < length values.

(** Position k's priority is at most position p's. *)
Definition prio_le {V} (ltb : V -> V -> bool) (values : list V) (ind : list nat) (k p : nat) : Prop :=
  forall vk vp, value_at values ind k = Some vk -> value_at values ind p = Some vp -> ltb vp vk = false.

(** A heap after the priority of position i was raised: only the edge from i to its parent may be
    wrong; i's children are still bounded by i's parent. *)
Definition heap_but_raised {V} (ltb : V -> V -> bool) (values : list V) (ind : list nat) (n i : nat) : Prop :=
  (forall k, 0 < k < n -> k <> i -> prio_le ltb values ind k ((k - 1) / 2)) /\
  (forall k, 0 < k < n -> (k - 1) / 2 = i -> 0 < i -> prio_le ltb values ind k ((i - 1) / 2)).

(** A heap after the priority of position i was lowered: only the edges from i to its children may be
    wrong; they are still bounded by i's parent. *)
Definition heap_but_lowered {V} (ltb : V -> V -> bool) (values : list V) (ind : list nat) (n i : nat) : Prop :=
  (forall k, 0 < k < n -> (k - 1) / 2 <> i -> prio_le ltb values ind k ((k - 1) / 2)) /\
  (forall k, 0 < k < n -> (k - 1) / 2 = i -> 0 < i -> prio_le ltb values ind k ((i - 1) / 2)).

(** Positions 0..n-1 hold the same slots in another order; everything from position n on is the same. *)
Definition same_slots (n : nat) (ind ind' : list nat) : Prop :=
  take n ind' ≡ₚ take n ind /\ drop n ind' = drop n ind.
