(** What a policy gradient is: the policy of a network output, and the loss whose gradient is followed. *)
From Verif Require Import NumLib.
From Coq Require Import Reals.
Open Scope R_scope.
Notation vec := (list R).

(** the policy: softmax with temperature *)
Definition policy (T : R) (n : nat) (z : vec) (k : nat) : R := exp (el z k / T) / sumn n (λ j, exp (el z j / T)).
Definition entropy (n : nat) (q : nat -> R) : R := - sumn n (λ k, q k * ln (q k)).
Definition distance (n : nat) (q q' : nat -> R) : R := R_sqrt.sqrt (sumn n (λ k, (q k - q' k) * (q k - q' k))).
(** minus the expected reward's score function: -sum alpha_k log q_k *)
Definition reward_loss (n : nat) (alpha : nat -> R) (q : nat -> R) : R := - sumn n (λ k, alpha k * ln (q k)).
(** sampling: the action belongs to the r-th part of the cumulative probabilities *)
Definition drawn (n : nat) (q : nat -> R) (r : R) (k : nat) : Prop := (k < n)%nat /\ sumn k q <= r < sumn (S k) q.
