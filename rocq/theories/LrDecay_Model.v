(** Model of src/learning_rate_decay.c, exact reals; epochs are naturals (uint in C).
    [None]: division by zero. *)
From Verif Require Import RealSum.
Open Scope R_scope.

(** learning_rate_decay.c:28-32 *)
Definition constant_decay (lr decay minimum : R) : R :=
  if decide (lr <= minimum) then lr else lr - decay.
(** learning_rate_decay.c:35-39 *)
Definition time_based_decay (lr decay minimum : R) (iterations : nat) : R :=
  if decide (lr <= minimum) then lr else lr * (1 / (1 + decay * INR iterations)).
(** learning_rate_decay.c:42-44: (1+epoch)/epochs_drop is an integer division; the minimum is not used *)
Definition step_decay (initial_lr drop minimum : R) (epoch epochs_drop : nat) : option R :=
  if decide (epochs_drop = 0)%nat then None else Some (initial_lr * drop ^ ((1 + epoch) / epochs_drop)%nat).
(** learning_rate_decay.c:46-48: epoch/epoch_threshold is an integer division *)
Definition cosine_annealing (lr_minimum lr_maximum : R) (epoch epoch_threshold : nat) : option R :=
  if decide (epoch_threshold = 0)%nat then None else
  Some (lr_minimum + (lr_maximum - lr_minimum) * (1 + cos (1 + PI * INR (epoch / epoch_threshold)%nat))).

(** llab.h:222-226 *)
Inductive lr_flag := LR_NO_DECAY | LR_CONSTANT_DECAY | LR_TIME_BASED_DECAY | LR_STEP_DECAY | LR_ANNEALING_DECAY.

(** learning_rate_decay.c:54-59: the two nested tests, with the [else] attached to the inner [if] as C does;
    Some true = return *)
Definition lr_returns_early (epoch epoch_threshold : nat) : option bool :=
  if (epoch <=? epoch_threshold)%nat then
    if decide (epoch = 0)%nat then None else
    if negb (epoch_threshold mod epoch =? 0)%nat then Some true
    else if negb (epoch mod epoch_threshold =? 0)%nat then Some true else Some false
  else Some false.

(** learning_rate_decay.c:51-70 update_lr.  The last test repeats LR_CONSTANT_DECAY, so
    cosine_annealing is never called. *)
Definition update_lr (lr lr_minimum lr_maximum initial_lr decay : R) (epoch epoch_threshold : nat) (flag : lr_flag) : option R :=
  match flag with
  | LR_NO_DECAY => Some lr
  | _ =>
    early ← lr_returns_early epoch epoch_threshold;
    if (early : bool) then Some lr else
    match flag with
    | LR_CONSTANT_DECAY => Some (constant_decay lr decay lr_minimum)
    | LR_TIME_BASED_DECAY => Some (time_based_decay lr decay lr_minimum epoch)
    | LR_STEP_DECAY => step_decay initial_lr decay lr_minimum epoch epoch_threshold
    | _ => Some lr
    end
  end.

(** training for epochs first, first+1, ..., calling update_lr once per epoch *)
Fixpoint train_lr (lr lr_minimum lr_maximum initial_lr decay : R) (first count threshold : nat) (flag : lr_flag) : option R :=
  match count with
  | O => Some lr
  | S count => lr' ← update_lr lr lr_minimum lr_maximum initial_lr decay first threshold flag;
      train_lr lr' lr_minimum lr_maximum initial_lr decay (S first) count threshold flag
  end.
