(** Model of the random and statistical helpers of src/math_functions.c: factorised noise of noisy layers, the Dirichlet sample of
    the tree search, the decoding of a categorical prediction, mean and std.  Exact reals.  [None] is an access outside a
    buffer, a NaN, or (for random_gamma) that the given draws are used up. *)
From Verif Require Import NumLib.
From Coq Require Import Reals.
Open Scope nat_scope.
Notation vec := (list R).

(** math_functions.c:1230-1239 factorised_gaussian; x is the value of random_general_gaussian(0,1) *)
Definition factorised (x : R) : R :=
  let '(sgn, x) := if decide (x < 0)%R then ((-1)%R, (- x)%R) else (1%R, x) in (sgn * R_sqrt.sqrt x)%R.
(** math_functions.c:1241-1254 set_factorised_noise; [g] are the normal values in the order of the calls, the state is the number of
    calls so far and the arrays noise and biases_noise *)
Definition set_factorised_noise (g : nat -> R) (input output : nat) (noise biases : vec) : option (nat * vec * vec) :=
  for_loop input 0 (λ i '(c, noise, biases),
    let f_x := factorised (g c) in
    for_loop output 0 (λ j '(c, noise, biases),
      '(c, biases) ← (if decide (i = 0) then b ← wr biases j (factorised (g c)); Some (S c, b) else Some (c, biases));
      f_y ← rd biases j;
      noise ← wr noise (j * input + i) (f_x * f_y)%R;
      Some (c, noise, biases)) (S c, noise, biases)) (0, noise, biases).

(** math_functions.c:1256-1271 random_gamma: one list element for each pass of the loop; M is RAND_MAX.  For w = 0 the result is 0
    times infinity. *)
Fixpoint random_gamma (M : Z) (alpha : R) (draws : list (Z * Z)) : option (R * list (Z * Z)) :=
  match draws with
  | [] => None
  | (a, b) :: draws =>
    let v1 := (2 * (IZR a / (IZR M + 1)) - 1)%R in let v2 := (2 * (IZR b / (IZR M + 1)) - 1)%R in
    let w := (v1 * v1 + v2 * v2)%R in
    if decide (1 <= w)%R then random_gamma M alpha draws
    else if decide (w = 0)%R then None
    else Some (alpha * (v1 * R_sqrt.sqrt (-2 * ln w / w)), draws)%R
  end.
(** math_functions.c:1273-1284 dirichlet_sample; a sum of 0 gives infinities and NaNs *)
Definition dirichlet_sample (M : Z) (alpha : R) (n : nat) (draws : list (Z * Z)) (sample : vec) : option vec :=
  '(sum, draws, sample) ← for_loop n 0 (λ i '(sum, draws, sample),
    '(x, draws) ← random_gamma M alpha draws; sample ← wr sample i x; Some (sum + x, draws, sample)%R) (0%R, draws, sample);
  if decide (0 < n /\ sum = 0%R) then None
  else for_loop n 0 (λ i s, x ← rd s i; wr s i (x / sum)%R) sample.

(** math_functions.c:1286-1293 mul_array_values_by_indices *)
Definition mul_array_values_by_indices (array : vec) (offset : R) (size : nat) : option R :=
  sum_loop size (λ i, x ← rd array i; Some (INR i * x + offset)%R) 0%R.

(** math_functions.c:51-59 mean, for a positive size *)
Definition mean (v : vec) (size : nat) : option R := s ← sum_loop size (rd v) 0%R; Some (s / INR size)%R.
(** math_functions.c:61-69 std *)
Definition std (v : vec) (m : R) (size : nat) : option R :=
  s ← sum_loop size (λ i, x ← rd v i; let t := Rabs (x - m) in Some (t * t)%R) 0%R; Some (s / INR size)%R.
