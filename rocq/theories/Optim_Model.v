(** Model of src/gd.c (and update.c:1363-1367) over exact reals (C: float).  Each function gets the value of the parameter
    and of the optimizer state behind its pointers and returns the new values. *)
From Verif Require Import NumLib.
Open Scope R_scope.

(** llab.h:111 RADAM_THRESHOLD *)
Definition RADAM_THRESHOLD : R := 4.

(** gd.c:37-41 nesterov_momentum; returns (p, delta) *)
Definition nesterov_momentum (p lr m : R) (mini : nat) (dp delta : R) : R * R :=
  (p + (m * m * delta - (1 + m) * lr * (dp / INR mini)), m * delta - lr * (dp / INR mini)).

(** gd.c:59-64 adam_algorithm; returns (p, delta1, delta2) *)
Definition adam_algorithm (p delta1 delta2 dp lr b1 b2 bb1 bb2 epsilon : R) (mini : nat) : R * R * R :=
  let temp := dp / INR mini in
  let d1 := b1 * delta1 + (1 - b1) * temp in
  let d2 := b2 * delta2 + (1 - b2) * (temp * temp) in
  (p - (lr * d1 / (1 - bb1)) / (R_sqrt.sqrt (d2 / (1 - bb2)) + epsilon), d1, d2).

(** gd.c:84-100 radam_algorithm; returns (p, delta1, delta2).  [EPSILON] is the constant of llab.h:110 *)
Definition radam_algorithm (EPSILON p delta1 delta2 dp lr b1 b2 bb1 bb2 : R) (mini t : nat) : R * R * R :=
  let temp := dp / INR mini in
  let p_inf := 2 / (1 - b2) - 1 in
  let d1 := b1 * delta1 + (1 - b1) * temp in
  let d2 := b2 * delta2 + (1 - b2) * (temp * temp) in
  let m_t_hat := d1 / (1 - bb1) in
  let p_t := p_inf - 2 * INR t * bb2 / (1 - bb2) in
  if decide (p_t > RADAM_THRESHOLD) then
    let l_t := R_sqrt.sqrt (1 - bb2) / (R_sqrt.sqrt d2 + EPSILON) in
    let r_t := R_sqrt.sqrt ((p_t - 4) * (p_t - 2) * p_inf / ((p_inf - 4) * (p_inf - 2) * p_t)) in
    (p - lr * r_t * m_t_hat * l_t, d1, d2)
  else (p - lr * m_t_hat, d1, d2).

(** math_functions.c:267-274 abs_sigmoid (both returns are 1/t) *)
Definition abs_sigmoid (x : R) : R := 1 / (1 + exp (- Rabs x)).
(** gd.c:118-125 adam_diff_grad_algorithm; returns (p, delta1, delta2, ex_d) *)
Definition adam_diff_grad_algorithm (p delta1 delta2 dp lr b1 b2 bb1 bb2 epsilon : R) (mini : nat) (ex_d : R) : R * R * R * R :=
  let temp := dp / INR mini in
  let d1 := b1 * delta1 + (1 - b1) * temp in
  let d2 := b2 * delta2 + (1 - b2) * (temp * temp) in
  let friction := abs_sigmoid (ex_d - dp / INR mini) in
  (p - (lr * friction * d1 / (1 - bb1)) / (R_sqrt.sqrt (d2 / (1 - bb2)) + epsilon), d1, d2, dp / INR mini).

(** gd.c:129-138 adamod; returns (p, delta1, delta2, delta3) *)
Definition adamod (p delta1 delta2 dp lr b1 b2 bb1 bb2 epsilon : R) (mini : nat) (b3 delta3 : R) : R * R * R * R :=
  let temp := dp / INR mini in
  let d1 := b1 * delta1 + (1 - b1) * temp in
  let d2 := b2 * delta2 + (1 - b2) * (temp * temp) in
  let m := d1 / (1 - bb1) in
  let v := d2 / (1 - bb2) in
  let n := lr / (R_sqrt.sqrt v + epsilon) in
  let d3 := b3 * delta3 + (1 - b3) * n in
  let n' := if decide (n > d3) then d3 else n in
  (p - n' * m, d1, d2, d3).

(** update.c:1363-1367 update_training_parameters: (beta1, beta2, time_step) *)
Definition update_training_parameters (beta1 beta2 : R) (time_step : nat) (start_beta1 start_beta2 : R) : R * R * nat :=
  (beta1 * start_beta1, beta2 * start_beta2, S time_step).

(** One parameter trained for [t] steps: step i calls the optimizer with the gradient sum [dp i] and then
    update_training_parameters, as rainbow.c:1817-1826, policy_gradient.c:174-177 and the programs in tests/ do.  The
    training parameters start at (b1, b2, 1): the callers of update_model start b1, b2 at the betas of the model and t at 1
    (rainbow.c:246,272, tests/test1/main.c:19; policy_gradient.c:99 starts t at 0, see C33_radam_t0). *)
Record train := Train { tr_p : R; tr_d1 : R; tr_d2 : R; tr_d3 : R; tr_bb1 : R; tr_bb2 : R; tr_t : nat }.
Definition train0 (p b1 b2 : R) (t0 : nat) : train := Train p 0 0 0 b1 b2 t0.
Definition after (b1 b2 : R) (s : train) (p d1 d2 d3 : R) : train :=
  let u := update_training_parameters (tr_bb1 s) (tr_bb2 s) (tr_t s) b1 b2 in Train p d1 d2 d3 u.1.1 u.1.2 u.2.
Definition adam_step (lr b1 b2 epsilon : R) (mini : nat) (dp : R) (s : train) : train :=
  let r := adam_algorithm (tr_p s) (tr_d1 s) (tr_d2 s) dp lr b1 b2 (tr_bb1 s) (tr_bb2 s) epsilon mini in after b1 b2 s r.1.1 r.1.2 r.2 (tr_d3 s).
Definition radam_step (EPSILON lr b1 b2 : R) (mini : nat) (dp : R) (s : train) : train :=
  let r := radam_algorithm EPSILON (tr_p s) (tr_d1 s) (tr_d2 s) dp lr b1 b2 (tr_bb1 s) (tr_bb2 s) mini (tr_t s) in after b1 b2 s r.1.1 r.1.2 r.2 (tr_d3 s).
Definition diff_grad_step (lr b1 b2 epsilon : R) (mini : nat) (dp : R) (s : train) : train :=
  let r := adam_diff_grad_algorithm (tr_p s) (tr_d1 s) (tr_d2 s) dp lr b1 b2 (tr_bb1 s) (tr_bb2 s) epsilon mini (tr_d3 s) in after b1 b2 s r.1.1.1 r.1.1.2 r.1.2 r.2.
Definition adamod_step (lr b1 b2 epsilon b3 : R) (mini : nat) (dp : R) (s : train) : train :=
  let r := adamod (tr_p s) (tr_d1 s) (tr_d2 s) dp lr b1 b2 (tr_bb1 s) (tr_bb2 s) epsilon mini b3 (tr_d3 s) in after b1 b2 s r.1.1.1 r.1.1.2 r.1.2 r.2.
Fixpoint run (step : R -> train -> train) (dp : nat -> R) (t : nat) (s : train) : train :=
  match t with O => s | S t => step (dp t) (run step dp t s) end.

(** Nesterov: n parameters trained for t steps, the gradient sum of the mini-batch being a function of the step and of all
    current parameters *)
Fixpoint nesterov_run (lr m : R) (mini : nat) (G : nat -> (nat -> R) -> nat -> R) (t : nat) (s : (nat -> R) * (nat -> R)) : (nat -> R) * (nat -> R) :=
  match t with
  | O => s
  | S t => let s := nesterov_run lr m mini G t s in
           (fun i => (nesterov_momentum (s.1 i) lr m mini (G t s.1 i) (s.2 i)).1, fun i => (nesterov_momentum (s.1 i) lr m mini (G t s.1 i) (s.2 i)).2)
  end.
