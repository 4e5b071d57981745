(** Specification for the merging of scores *)
From Verif Require Import NumLib RealSum.
From Coq Require Import Reals.
Notation vec := (list R).
Open Scope nat_scope.

(** what is used of the error function *)
Definition error_function (erf : R -> R) : Prop := (∀ x, erf (- x) = - erf x)%R /\ (∀ x y, x < y -> erf x < erf y)%R /\ (∀ x, -1 < erf x < 1)%R.
(** the probability that a normal value of mean mi and deviation si is greater than an independent one of mean mj and deviation sj *)
Definition probability_greater (erf : R -> R) (mi si mj sj : R) : R := (1 / 2 * (1 + erf ((mi - mj) / (sqrt 2 * sqrt (si * si + sj * sj)))))%R.
(** the list names the entries in the order of their values *)
Definition rising (value : nat -> R) (order : list nat) : Prop := ∀ i j x y, i < j -> order !! i = Some x -> order !! j = Some y -> (value x <= value y)%R.
Definition falling (value : nat -> R) (order : list nat) : Prop := ∀ i j x y, i < j -> order !! i = Some x -> order !! j = Some y -> (value y <= value x)%R.
Fixpoint total (ns : list nat) : nat := match ns with [] => 0 | n :: r => n + total r end.
(** layer [a] has [n] connections, the first of them at offset [o] *)
Definition layer_at (ns : list nat) (a o n : nat) : Prop := ns !! a = Some n /\ o = total (take a ns).
(** the score that network [j] gives to connection [i], and the sum over the networks *)
Definition score_of (scores : list vec) (j i : nat) : R := el (nth j scores []) i.
Definition summed (scores : list vec) (i : nat) : R := sumn (length scores) (λ j, score_of scores j i).
(** the connections of the layer at offset [o], in the order of the indices, have the scores 0, step, 2*step, … *)
Definition ranked (step : R) (indices : list nat) (scores : vec) (o n : nat) : Prop :=
  (∀ x, x < n -> ∃ i, i < n /\ indices !! (o + i) = Some x) /\
  (∀ i, i < n -> ∃ x, x < n /\ indices !! (o + i) = Some x /\ scores !! (o + x) = Some (INR i * step)%R).
