(** Textbook definitions of the optimizers *)
From Verif Require Import NumLib.
Open Scope R_scope.

(** exponentially weighted mean of x_0..x_t: the weight of x_i is b^(t-i) *)
Definition ewma (b : R) (x : nat -> R) (t : nat) : R := sumn (S t) (fun i => b ^ (t - i) * x i) / sumn (S t) (fun i => b ^ (t - i)).

(** Adam (Kingma and Ba): the step taken with the gradients g_0..g_t *)
Definition adam_update (lr b1 b2 eps : R) (g : nat -> R) (t : nat) : R := lr * ewma b1 g t / (R_sqrt.sqrt (ewma b2 (fun i => g i ^ 2) t) + eps).

(** Nesterov's accelerated gradient: velocity and position, the gradient is taken at the look-ahead point theta + m*v *)
Fixpoint nag (lr m : R) (G : nat -> (nat -> R) -> nat -> R) (t : nat) (s : (nat -> R) * (nat -> R)) : (nat -> R) * (nat -> R) :=
  match t with
  | O => s
  | S t => let s := nag lr m G t s in
           let v := fun i => m * s.2 i - lr * G t (fun j => s.1 j + m * s.2 j) i in
           (fun i => s.1 i + v i, v)
  end.

(** RAdam (Liu et al.): degrees of freedom and rectification *)
Definition rho_inf (b2 : R) : R := 2 / (1 - b2) - 1.
Definition rho (b2 : R) (t : nat) : R := rho_inf b2 - 2 * INR t * b2 ^ t / (1 - b2 ^ t).
Definition rectification (b2 : R) (t : nat) : R :=
  R_sqrt.sqrt ((rho b2 t - 4) * (rho b2 t - 2) * rho_inf b2 / ((rho_inf b2 - 4) * (rho_inf b2 - 2) * rho b2 t)).
