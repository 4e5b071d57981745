(** Specification: per-class outcomes of a dataset. *)
From Verif Require Import RealSum.
Open Scope nat_scope.

Section spec.
  Context {V : Type} (geb : V -> V -> bool) (thr : V).
  (** the sample d is (really) positive for class i; it is predicted positive for class i *)
  Definition really (d : list V * list V) (i : nat) : bool := match d.2 !! i with Some x => geb x thr | None => false end.
  Definition predicted (d : list V * list V) (i : nat) : bool := match d.1 !! i with Some x => geb x thr | None => false end.
  (** number of samples whose real class is a and predicted class is b, for output i *)
  Definition outcomes (data : list (list V * list V)) (i : nat) (a b : bool) : nat :=
    length (filter (fun d => really d i = a /\ predicted d i = b) data).
End spec.
