(** Specification of sorting an index array by the values it points to. *)
From Verif Require Import Base Order.

(** The value A[I[k]]. *)
Definition value_at {V} (A : list V) (I : list nat) (k : nat) : option V := a ← I !! k; A !! a.

(** A[I[lo]] <= A[I[lo+1]] <= ... <= A[I[hi]]. *)
Definition ascending {V} (ltb : V -> V -> bool) (A : list V) (I : list nat) (lo hi : nat) : Prop :=
  forall a b u v, lo <= a <= b -> b <= hi ->
    value_at A I a = Some u -> value_at A I b = Some v -> ltb v u = false.

(** Every index stored between lo and hi points into A. *)
Definition indices_valid {V} (A : list V) (I : list nat) (lo hi : nat) : Prop :=
  hi < length I /\ forall k, lo <= k <= hi -> exists a, I !! k = Some a /\ a < length A.
