(** Comparison of array values.  The C code compares floats (or ints) with [<], [>], [<=], [>=].
    The model is parametric in the value type and in the boolean [<]; theorems assume that [<]
    is a strict weak order, which is the case for C ints and for floats other than NaN. *)
From Verif Require Export Base.

Definition strict_weak_order {V : Type} (ltb : V -> V -> bool) : Prop :=
  (forall x, ltb x x = false) /\
  (forall x y z, ltb x y = true -> ltb y z = true -> ltb x z = true) /\
  (forall x y z, ltb x y = false -> ltb y z = false -> ltb x z = false).

(** [x <= y] is "not y < x". *)
Definition leP {V : Type} (ltb : V -> V -> bool) (x y : V) : Prop := ltb y x = false.
