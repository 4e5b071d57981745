(** Model of the Fisher-Yates shuffles of src/utils.c, lines 173-524.

    [rand : nat -> Z] gives the value returned by the k-th call of rand() during the shuffle;
    [rmax] is RAND_MAX.  Rows of a matrix are pointers in C: the model is parametric in their
    type.  Integer types: [n] is a C int, the loop counter a size_t; [n - i] is computed in
    size_t, so it is exact while i <= n, and [RAND_MAX/(n-i)] is a division by zero (undefined
    behaviour, [None]) when i = n. *)
From Verif Require Import Base.
Open Scope nat_scope.

Section shuffle.
  Context (rmax : Z) (rand : nat -> Z).

  (** utils.c:178 (and the same expression in every shuffle):
      [size_t j = i + rand() / (RAND_MAX / (n - i) + 1);] *)
  Definition pick (i n : nat) : option nat :=
    if decide (n <= i) then None
    else Some (i + Z.to_nat (rand i / (rmax / Z.of_nat (n - i) + 1))%Z).

  (** utils.c:179-181: [t = m[j]; m[j] = m[i]; m[i] = t;] *)
  Definition swap_cells {A} (i j : nat) (m : list A) : option (list A) :=
    t ← rd m j; x ← rd m i; m' ← wr m j x; wr m' i t.

  (** utils.c:262,269-270: [t3 = v[j]; v[i] = v[i]; v[i] = t3;]  (as written in the C code) *)
  Definition int_vector_cells {A} (i j : nat) (v : list A) : option (list A) :=
    t3 ← rd v j; x ← rd v i; v' ← wr v i x; wr v' i t3.

  (** utils.c:173-186 shuffle_char_matrix; identical bodies: shuffle_float_matrix 397-410,
      shuffle_int_matrix 439-452, shuffle_int_array 461-474. *)
  Definition shuffle_matrix {A} (m : list A) (n : nat) : option (list A) :=
    if decide (1 < n) then
      for_loop (n - 1) 0 (fun i m => j ← pick i n; swap_cells i j m) m
    else Some m.

  (** utils.c:483-496 shuffle_int_array_until_length.  [length - 1] is an int converted to
      size_t for the comparison with i: for length = 0 it becomes the largest size_t, so the loop
      does not stop before i = n, where it divides by zero; modelled as n+1 iterations. *)
  Definition shuffle_int_array_until_length {A} (m : list A) (n len : nat) : option (list A) :=
    if decide (1 < n) then
      for_loop (if decide (len = 0) then n + 1 else len - 1) 0
        (fun i m => j ← pick i n; swap_cells i j m) m
    else Some m.

  (** utils.c:197-213 shuffle_char_matrices; identical: shuffle_float_matrices 224-240,
      shuffle_float_matrix_float_tensor 415-431, shuffle_int_matrices 508-524. *)
  Definition shuffle_matrices {A B} (m : list A) (m1 : list B) (n : nat)
    : option (list A * list B) :=
    if decide (1 < n) then
      for_loop (n - 1) 0 (fun i '(m, m1) =>
        j ← pick i n; m' ← swap_cells i j m; m1' ← swap_cells i j m1; Some (m', m1')) (m, m1)
    else Some (m, m1).

  (** utils.c:253-275 shuffle_char_matrices_float_int_vectors; identical:
      shuffle_float_matrices_float_int_vectors 288-310. *)
  Definition shuffle_matrices_float_int_vectors {A B C D}
      (m : list A) (m1 : list B) (f : list C) (v : list D) (n : nat)
    : option (list A * list B * list C * list D) :=
    if decide (1 < n) then
      for_loop (n - 1) 0 (fun i '(m, m1, f, v) =>
        j ← pick i n; m' ← swap_cells i j m; m1' ← swap_cells i j m1; f' ← swap_cells i j f;
        v' ← int_vector_cells i j v; Some (m', m1', f', v')) (m, m1, f, v)
    else Some (m, m1, f, v).

  (** utils.c:324-349 shuffle_char_matrices_float_int_int_vectors; identical:
      shuffle_float_matrices_float_int_int_vectors 363-388. *)
  Definition shuffle_matrices_float_int_int_vectors {A B C D E}
      (m : list A) (m1 : list B) (f : list C) (v : list D) (v2 : list E) (n : nat)
    : option (list A * list B * list C * list D * list E) :=
    if decide (1 < n) then
      for_loop (n - 1) 0 (fun i '(m, m1, f, v, v2) =>
        j ← pick i n; m' ← swap_cells i j m; m1' ← swap_cells i j m1; f' ← swap_cells i j f;
        v' ← int_vector_cells i j v; v2' ← int_vector_cells i j v2;
        Some (m', m1', f', v', v2')) (m, m1, f, v, v2)
    else Some (m, m1, f, v, v2).
End shuffle.
