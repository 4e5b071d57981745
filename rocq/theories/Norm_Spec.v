(** What normalization should compute (C32).  X i j is entry j of instance i. *)
From Verif Require Import NumLib.
Open Scope R_scope.

(** entry j of row i of a matrix, and "a rows of b entries" *)
Definition mel (m : list (list R)) (i j : nat) : R := el (nth i m []) j.
Definition shape (m : list (list R)) (a b : nat) : Prop := length m = a /\ forall i, (i < a)%nat -> length (nth i m []) = b.

(** mean and (biased) variance of feature j over the B instances *)
Definition batch_mean (X : nat -> nat -> R) (B j : nat) : R := sumn B (fun i => X i j) / INR B.
Definition batch_variance (X : nat -> nat -> R) (B j : nat) : R := sumn B (fun i => (X i j - batch_mean X B j) ^ 2) / INR B.
Definition standardized (X : nat -> nat -> R) (B : nat) (eps : R) (i j : nat) : R := (X i j - batch_mean X B j) / R_sqrt.sqrt (batch_variance X B j + eps).
Definition batch_norm_output (X : nat -> nat -> R) (B : nat) (eps : R) (gamma beta : list R) (i j : nat) : R := el gamma j * standardized X B eps i j + el beta j.
(** <error, output> of a batch, B instances of N features *)
Definition batch_norm_loss (E X : nat -> nat -> R) (B N : nat) (eps : R) (gamma beta : list R) : R :=
  sumn B (fun i => sumn N (fun j => E i j * batch_norm_output X B eps gamma beta i j)).

(** Euclidean norm, and g*x/|x| *)
Definition norm2 (n : nat) (x : list R) : R := R_sqrt.sqrt (sumn n (fun i => el x i ^ 2)).
Definition scaled_l2 (n : nat) (g : R) (x : list R) (i : nat) : R := g * el x i / norm2 n x.
Definition scaled_l2_loss (n : nat) (e : list R) (g : R) (x : list R) : R := sumn n (fun i => el e i * scaled_l2 n g x i).

(** local response normalization of a vector with all channels in use: entry i divided by (k + alpha * sum of squares of
    the entries at distance at most h) ^ beta *)
Definition lrn_scale (x : list R) (n h : nat) (alpha k : R) (i : nat) : R :=
  k + alpha * sumn n (fun c => if decide (c <= i + h /\ i <= c + h)%nat then el x c ^ 2 else 0).
Definition lrn (x : list R) (n h : nat) (beta alpha k : R) (i : nat) : R := el x i / Rpower (lrn_scale x n h alpha k i) beta.
Definition lrn_loss (e x : list R) (n h : nat) (beta alpha k : R) : R := sumn n (fun i => el e i * lrn x n h beta alpha k i).
