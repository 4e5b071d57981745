(** Model of copy_clipped_vector and clip_vector (src/math_functions.c:127-156).  Elements are
    any type with a C-like comparison [ltb] (for floats: false whenever an operand is NaN).  [None]: exit(1) or an
    out-of-bounds access. *)
From Verif Require Import Base.
Open Scope nat_scope.
Section clip.
  Context {V : Type} (ltb : V -> V -> bool).
  (** math_functions.c:127-141 copy_clipped_vector(vector,output,maximum,minimum,dimension) *)
  Definition copy_clipped_vector (vector output : list V) (maximum minimum : V) (dimension : nat) : option (list V) :=
    if ltb maximum minimum then None else
    for_loop dimension 0 (fun i out =>
      x ← rd vector i;
      if ltb x minimum then wr out i minimum
      else if ltb maximum x then wr out i maximum
      else wr out i x) output.
  (** math_functions.c:143-156 clip_vector(vector,minimum,maximum,dimension) *)
  Definition clip_vector (vector : list V) (minimum maximum : V) (dimension : nat) : option (list V) :=
    if ltb maximum minimum then None else
    for_loop dimension 0 (fun i v =>
      x ← rd v i;
      if ltb x minimum then wr v i minimum
      else if ltb maximum x then wr v i maximum
      else Some v) vector.
End clip.
