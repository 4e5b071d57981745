(** Model of the activation functions of src/math_functions.c:258-391 and 772-800, over exact reals
    (C: float, with exp of libm computed in double).  The NaN tests of sigmoid and tanhh never fire on
    reals.  The *_array functions all have the shape of [map_array]. *)
From Verif Require Import NumLib.
Open Scope R_scope.

(** math_functions.c:258-265 (both branches return 1/t) *)
Definition sigmoid (x : R) : R := let t := 1 + exp (- x) in 1 / t.
(** math_functions.c:267-274; float_abs is |.| (math_functions.c:1106) *)
Definition abs_sigmoid (x : R) : R := let t := 1 + exp (- Rabs x) in 1 / t.
(** math_functions.c:289-295 *)
Definition derivative_sigmoid (x : R) : R := let y := sigmoid x in y * (1 - y).
Definition derivative_sigmoid_given_the_sigmoid (x : R) : R := x * (1 - x).
(** math_functions.c:310-315, 324-329 *)
Definition relu (x : R) : R := if decide (x > 0) then x else 0.
Definition derivative_relu (x : R) : R := if decide (x > 0) then 1 else 0.
(** llab.h:131 LEAKY_RELU_THRESHOLD *)
Definition leaky_threshold : R := 1 / 10.
(** math_functions.c:338-343, 352-357 *)
Definition leaky_relu (x : R) : R := if decide (x > 0) then x else x * leaky_threshold.
Definition derivative_leaky_relu (x : R) : R := if decide (x > 0) then 1 else leaky_threshold.
(** math_functions.c:366-372 *)
Definition tanhh (x : R) : R := let y := exp (2 * x) in (y - 1) / (y + 1).
(** math_functions.c:381-384 *)
Definition derivative_tanhh (x : R) : R := let y := tanhh x in 1 - y * y.
(** math_functions.c:772-776, 786-791 *)
Definition elu (z a : R) : R := if decide (z > 0) then z else a * (exp z - 1).
Definition derivative_elu (z a : R) : R := if decide (z > 0) then 1 else a * exp z.

(** math_functions.c:275-280, 282-287, 297-308, 317-322, 331-336, 345-350, 359-364, 374-379, 386-391,
    779-784, 793-798: for(i = 0; i < size; i++) output[i] = f(input[i]) *)
Definition map_array (f : R -> R) (input output : list R) (size : nat) : option (list R) :=
  for_loop size 0 (fun i out => x ← rd input i; wr out i (f x)) output.
