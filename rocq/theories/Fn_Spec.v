(** Specifications for the random and statistical helpers *)
From Verif Require Import NumLib.
From Coq Require Import Reals.
Open Scope R_scope.
Notation vec := (list R).

(** y has the sign of x, and its square is the size of x *)
Definition signed_root (x y : R) : Prop := y * Rabs y = x.
(** a point of the simplex *)
Definition simplex (n : nat) (p : vec) : Prop := length p = n /\ (∀ i, (i < n)%nat -> 0 <= el p i) /\ sumn n (el p) = 1.
(** the expected value of a distribution over the values offset, offset + 1, ... *)
Definition expected (n : nat) (offset : R) (p : vec) : R := sumn n (λ i, el p i * (INR i + offset)).
Definition average (n : nat) (v : vec) : R := sumn n (el v) / INR n.
Definition standard_deviation (n : nat) (v : vec) : R := R_sqrt.sqrt (sumn n (λ i, (el v i - average n v) * (el v i - average n v)) / INR n).
(** The polar method for a normal value: a point of the square (-1,1) x (-1,1) given by two values of rand(); rejected outside the open
    unit disc, and otherwise giving a normal value *)
Definition square_point (M : Z) (d : Z * Z) : R * R := (2 * (IZR d.1 / (IZR M + 1)) - 1, 2 * (IZR d.2 / (IZR M + 1)) - 1).
Definition radius2 (p : R * R) : R := p.1 * p.1 + p.2 * p.2.
Definition polar_normal (p : R * R) : R := p.1 * R_sqrt.sqrt (-2 * ln (radius2 p) / radius2 p).
