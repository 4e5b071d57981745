(** Model of the quantile-regression losses of src/dueling_categorical_dqn.c over exact reals (C: float).  The combined
    values of the online network at state_t (softmax_layer) and the target y (reward_t + lambda*qs, or reward_t, the same
    for every quantile: y_hat[i]) are arguments. *)
From Coq Require Import Reals Lra.
From Verif Require Export NumLib.
From Verif Require Export Loss_Model.
Open Scope R_scope.

(** dueling_categorical_dqn.c:1614-1620 (and 1702-1708): vals[i], with the fraction (i+1)/n_atoms *)
Definition quantile_weight (n i : nat) (y p : R) : R :=
  (if decide (y - p < 0) then Rabs (INR (i + 1) / INR n - 1) else INR (i + 1) / INR n) / INR n.
(** dueling_categorical_dqn.c:1735-1742: vals[i] of the _with_error variant, with the fraction (2i+1)/(2 n_atoms) *)
Definition midpoint_weight (n i : nat) (y p : R) : R :=
  (if decide (y - p < 0) then Rabs (INR (2 * i + 1) / INR (2 * n) - 1) else INR (2 * i + 1) / INR (2 * n)) / INR n.

(** dueling_categorical_dqn.c:1607-1621 (1695-1709, 1728-1743): the array vals *)
Definition quantile_weights (weight : nat -> nat -> R -> R -> R) (n action_t : nat) (y : R) (sm : list R) : option (list R) :=
  for_loop n 0 (fun i vals => p ← rd sm (action_t * n + i)%nat; wr vals i (weight n i y p)) (replicate n 0).

(** dueling_categorical_dqn.c:1622-1623 (1710-1711, 1744-1745): derivative_huber_loss_array(y_hat, softmax_layer + from,
    error + action_t*n, 1, n), then dot1D(vals, row, row, n) *)
Definition quantile_row (n from action_t : nat) (y : R) (sm vals error : list R) : option (list R) :=
  error ← for_loop n 0 (fun i e => p ← rd sm (from + i)%nat; wr e (action_t * n + i)%nat (derivative_huber_loss y p 1)) error;
  for_loop n 0 (fun i e => v ← rd vals i; x ← rd e (action_t * n + i)%nat; wr e (action_t * n + i)%nat (v * x)) error.

(** dueling_categorical_dqn.c:1605-1626 get_loss_for_qr_dqn after the evaluation of the networks: at line 1622 the loop
    counter i is n_atoms, so the row starts at action_t*n + n *)
Definition qr_loss (n action_t : nat) (y : R) (sm error : list R) : option (list R) :=
  vals ← quantile_weights quantile_weight n action_t y sm;
  quantile_row n (action_t * n + n)%nat action_t y sm vals error.

(** dueling_categorical_dqn.c:1693-1714 get_loss_for_qr_dqn_opt *)
Definition qr_loss_opt (n action_t : nat) (y : R) (sm error : list R) : option (list R) :=
  vals ← quantile_weights quantile_weight n action_t y sm;
  quantile_row n (action_t * n)%nat action_t y sm vals error.

(** dueling_categorical_dqn.c:1726-1753 get_loss_for_qr_dqn_opt_with_error: (error, new_error[0]) *)
Definition qr_loss_opt_with_error (n action_t : nat) (y weight new_error : R) (sm error : list R) : option (list R * R) :=
  vals ← quantile_weights midpoint_weight n action_t y sm;
  error ← quantile_row n (action_t * n)%nat action_t y sm vals error;
  error ← for_loop n 0 (fun i e => x ← rd e (action_t * n + i)%nat; wr e (action_t * n + i)%nat (x * weight)) error;
  ne ← sum_loop n (fun i => p ← rd sm (action_t * n + i)%nat; v ← rd vals i; Some (huber_loss y p 1 * v)) new_error;
  Some (error, Rabs ne).
