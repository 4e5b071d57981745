(** The positional encoding of "Attention is all you need", which positional_encoding.c names as its source: the numbers 2m and
    2m+1 of the vector of position pos are sin and cos of pos / 10000^(2m/d). *)
From Verif Require Import NumLib.
From Coq Require Import Reals.
Local Open Scope R_scope.

Definition frequency (d m : nat) : R := / Rpower 10000 (INR (2 * m) / INR d).
Definition documented (d pos k : nat) : R :=
  if Nat.even k then sin (INR pos * frequency d (k / 2)) else cos (INR pos * frequency d (k / 2)).
(** the product of the vectors of two positions *)
Definition product (d : nat) (f : nat -> nat -> R) (i i' : nat) : R := sumn d (λ k, f i k * f i' k).
(** number k of the vector of position i in an array of vectors *)
Definition number (d : nat) (p : list R) (i k : nat) : R := el p (i * d + k).
