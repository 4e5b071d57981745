(** Model of src/positional_encoding.c and of src/initialization.c, over exact reals.  [None] is exit(1) or an access outside
    the buffer.  Sizes and products of sizes are not bounded; conversions between float and double, and the overflow of pow, are
    not modelled. *)
From Verif Require Import NumLib.
From Coq Require Import Reals.
Open Scope nat_scope.
Notation vec := (list R).

(** positional_encoding.c:51, 52: (double)i / (pow(10000, (double)2*j) / embedding_dimension) *)
Definition angle (d i j : nat) : R := (INR i / (10000 ^ (2 * j) / INR d))%R.
(** positional_encoding.c:50-53, the inner loop: j = 2 m *)
Definition fill_row (d i : nat) (p : vec) : option vec :=
  for_loop (d / 2) 0 (λ m p, let j := 2 * m in
    p ← wr p (i * d + j) (sin (angle d i j)); wr p (i * d + j + 1) (cos (angle d i (j + 1)))) p.
(** positional_encoding.c:41-57 sin_cos_positional_encoding_vector *)
Definition positional_encoding (d len : nat) : option vec :=
  if decide (d mod 2 <> 0) then None
  else for_loop len 0 (fill_row d) (replicate (len * d) 0%R).

(** initialization.c:28-30 r2; M is RAND_MAX, r the value of rand() *)
Definition r2 (M r : Z) : R := (IZR r / IZR M)%R.
(** initialization.c:42-46 signed_r2; the values of the calls of rand() in the order of the calls: the test, then the size *)
Definition signed_r2 (M ra rb : Z) (n : R) : R :=
  if decide (/ 2 <= r2 M ra)%R then (r2 M rb * n)%R else (- r2 M rb * n)%R.
(** initialization.c:48-50 generate_from_random_distribution; for lo = hi the inner quotient is infinite in C and 0 here, and the outer one is 0 in both *)
Definition from_range (M r : Z) (lo hi : R) : R := (lo + IZR r / (IZR M / (hi - lo)))%R.
(** initialization.c:52-54 drand *)
Definition drand (M r : Z) : R := ((IZR r + 1) / (IZR M + 1))%R.
(** initialization.c:57-59 random_normal *)
Definition normal (M ra rb : Z) : R := (R_sqrt.sqrt (-2 * ln (drand M ra)) * cos (2 * PI * drand M rb))%R.
(** initialization.c:63-87 *)
Definition gaussian (mean std : R) (M ra rb : Z) : R := (mean + std * normal M ra rb)%R.
Definition xavier (n : R) := gaussian 0 (R_sqrt.sqrt (1 / n)).
Definition xavier2 (n1 n2 : R) := gaussian 0 (R_sqrt.sqrt (2 / (n1 + n2))).
Definition kaiming (n : R) := gaussian 0 (R_sqrt.sqrt (2 / n)).
Definition signed_kaiming (n : R) (M ra rb : Z) : R := signed_r2 M ra rb (R_sqrt.sqrt (2 / n)).
(** pow for a base that is not negative and a positive exponent *)
Definition powr (x y : R) : R := if decide (x = 0)%R then 0%R else Rpower x y.
(** initialization.c:32-40 random_beta; [None] is 0/0, a NaN *)
Definition random_beta (alpha beta : R) (M ra rb : Z) : option R :=
  let x := powr (r2 M ra) (1 / alpha) in let y := powr (r2 M rb) (1 / beta) in
  if decide (x + y = 0)%R then None else Some (x / (x + y))%R.
