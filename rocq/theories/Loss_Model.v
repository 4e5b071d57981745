(** Model of the loss functions of src/math_functions.c:393-750 over exact reals (C: float; log/pow
    computed in double).  [None]: no value returned (a path without return).  NaN tests never fire on
    reals, except those on log of a non-positive number, which are explicit. *)
From Verif Require Import NumLib.
Open Scope R_scope.

(** math_functions.c:393-396, 405-407 *)
Definition mse (y_hat y : R) : R := let z := y_hat - y in z * z / 2.
Definition derivative_mse (y_hat y : R) : R := y_hat - y.

(** math_functions.c:416-430.  log(1-y_hat) is -infinity for y_hat = 1 and NaN beyond: for y_hat > 1, and
    for y_hat = 1, y = 1 (0 * -infinity), [constant] is NaN and replaced by 0; y_hat = 1 with y <> 1 gives an infinite
    result ([None]); so does log of a negative y_hat (NaN, [None]). *)
Definition cross_entropy (y_hat y : R) : option R :=
  log_one ← (if decide (y_hat = 0) then Some (-999999) else if decide (y_hat < 0) then None else Some (ln y_hat));
  constant ← (if decide (y_hat < 1) then Some ((1 - y) * ln (1 - y_hat))
              else if decide (y_hat > 1) then Some 0 else if decide (y = 1) then Some 0 else None);
  Some (- y * log_one - constant).
(** math_functions.c:469-471 ([None]: division by zero) *)
Definition derivative_cross_entropy (y_hat y : R) : option R :=
  if decide ((1 - y_hat) * y_hat = 0) then None else Some ((y_hat - y) / ((1 - y_hat) * y_hat)).

(** math_functions.c:480-489, 492-494 *)
Definition cross_entropy_reduced_form (y_hat y : R) : R :=
  let log_one := if decide (y_hat = 0) then -999999 else ln y_hat in - y * log_one.
Definition derivative_cross_entropy_reduced_form_with_softmax (y_hat y : R) : R := y_hat - y.

(** math_functions.c:542-549, 551-558 *)
Definition huber_loss (y_hat y threshold : R) : R :=
  let v := Rabs (y_hat - y) in if decide (v <= threshold) then v * v / 2 else threshold * v - threshold * threshold / 2.
Definition derivative_huber_loss (y_hat y threshold : R) : R :=
  let v := Rabs (y_hat - y) in if decide (v <= threshold) then y - y_hat else threshold * (y - y_hat) / v.

(** math_functions.c:575-586, 588-599 *)
Definition modified_huber_loss (y_hat y threshold1 threshold2 : R) : R :=
  if decide (y * y_hat >= -1) then
    if decide (threshold1 - y_hat * y > 0) then (threshold1 - y_hat * y) * (threshold1 - y_hat * y) else 0
  else - threshold2 * y_hat * y.
Definition derivative_modified_huber_loss (y_hat y threshold1 threshold2 : R) : R :=
  if decide (y * y_hat >= -1) then
    if decide (threshold1 - y_hat * y > 0) then -2 * y * threshold1 + 2 * y_hat * y * y else 0
  else - threshold2 * y.

(** math_functions.c:616-632, 641-657, for 0 < temp < 1 and real exponents pow(a,b) is exp(b ln a) *)
Definition focal_loss (y_hat y gamma : R) : R :=
  let temp := if decide (y = 1) then y_hat else 1 - y_hat in
  let temp' := if decide (temp = 0) then 0 else temp in
  let log_one := if decide (temp = 0) then -999999 else ln temp in
  - Rpower (1 - temp') gamma * log_one.
Definition derivative_focal_loss (y_hat y gamma : R) : R :=
  let temp := if decide (y = 1) then y_hat else 1 - y_hat in
  let log_one := ln temp in
  let power := Rpower (1 - temp) gamma / temp in
  let temp2 := gamma * Rpower (1 - temp) (gamma - 1) * log_one - power in
  if decide (y = 1) then temp2 else - temp2.

(** llab.h:110 *)
Definition EPSILON : R := / 10000000.
(** math_functions.c:666-687, one component, for non-negative inputs (log of a positive number) *)
Definition kl_divergence (input1 input2 : R) : R :=
  if decide (input2 = 0) then 1 / EPSILON
  else if decide (input1 = 0) then EPSILON * ln (EPSILON / input2)
  else input1 * ln (input1 / input2).
(** math_functions.c:689-704, one component *)
Definition derivative_kl_divergence (y_hat y : R) : R :=
  if decide (y_hat = 0 \/ y = 0) then 0 else ln (y_hat / y) + 1.

(** math_functions.c:706-708, 717-719 *)
Definition entropy (y_hat : R) : R := - y_hat * ln y_hat.
Definition derivative_entropy (y_hat : R) : R := -1 - ln y_hat.

(** math_functions.c:729-731 *)
Definition constrantive_loss (y_hat y margin : R) : R :=
  y * y_hat * y_hat * 1 / 2 + (1 - y) * Rmax 0 (margin - y_hat) * Rmax 0 (margin - y_hat) * 1 / 2.
(** math_functions.c:733-742: no return statement when y = 0 and margin <= y_hat *)
Definition derivative_constrantive_loss (y_hat y margin : R) : option R :=
  if decide (y = 0) then
    if decide (Rmax 0 (margin - y_hat) > 0) then Some (y_hat - margin) else None
  else Some y_hat.

(** math_functions.c:398-403, 409-414, ...: every *_array version is
    for(i = 0; i < size; i++) output[i] = f(y_hat[i],y[i]) *)
Definition map2_array (f : R -> R -> option R) (y_hat y output : list R) (size : nat) : option (list R) :=
  for_loop size 0 (fun i out => a ← rd y_hat i; b ← rd y i; v ← f a b; wr out i v) output.

(** math_functions.c:520-540 derivative_total_variation_loss_2d: the update for the pair (a,b) of
    neighbouring cells (b is the cell below or to the right): ratio = (y[b]-y[a])/|y[b]-y[a]| is added to both.
    [None]: division 0/0. *)
Definition tv_pair (y : list R) (a b : nat) (out : list R) : option (list R) :=
  ya ← rd y a; yb ← rd y b;
  if decide (yb - ya = 0) then None else
  let ratio := (yb - ya) / Rabs (yb - ya) in
  out ← addat out b ratio; addat out a ratio.
Definition derivative_total_variation_loss_2d (y output : list R) (rows cols : nat) : option (list R) :=
  out ← for_loop (rows - 1) 0 (fun i out =>
    out ← for_loop (cols - 1) 0 (fun j out =>
      out ← tv_pair y (i * cols + j) ((i + 1) * cols + j) out;
      tv_pair y (i * cols + j) (i * cols + j + 1) out) out;
    tv_pair y (i * cols + (cols - 1)) ((i + 1) * cols + (cols - 1)) out) output;
  for_loop (cols - 1) 0 (fun j out => tv_pair y ((rows - 1) * cols + j) ((rows - 1) * cols + j + 1) out) out.
(** math_functions.c:503-518 total_variation_loss_2d: the accumulator [sum] is never initialised; [garbage]
    is its initial value. *)
Definition tv_term (y : list R) (a b : nat) : option R := ya ← rd y a; yb ← rd y b; Some (Rabs (yb - ya)).
Definition total_variation_loss_2d (garbage : R) (y : list R) (rows cols : nat) : option R :=
  s ← for_loop (rows - 1) 0 (fun i s =>
    s ← for_loop (cols - 1) 0 (fun j s =>
      a ← tv_term y (i * cols + j) ((i + 1) * cols + j); b ← tv_term y (i * cols + j) (i * cols + j + 1); Some (s + (a + b))) s;
    a ← tv_term y (i * cols + (cols - 1)) ((i + 1) * cols + (cols - 1)); Some (s + a)) garbage;
  for_loop (cols - 1) 0 (fun j s => a ← tv_term y ((rows - 1) * cols + j) ((rows - 1) * cols + j + 1); Some (s + a)) s.
