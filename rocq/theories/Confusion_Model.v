(** Model of confusion_matrix and the metric arrays (src/utils.c:702-806).
    Comparisons are a parameter of the model: geb x y is [x >= y], ltb x y is [x < y]; for floats that are
    not NaN one is the negation of the other.  Counters are unbounded naturals (uint64 in C).
    The metrics are computed over exact reals; 0/0 (NaN, replaced by 0 in C) is an explicit case. *)
From Verif Require Import RealSum.
Open Scope nat_scope.

Section confusion.
  Context {V : Type} (ltb geb : V -> V -> bool).

  (** conf_mat[r][c]++ *)
  Definition incr (m : list (list nat)) (r c : nat) : option (list (list nat)) :=
    row ← rd m r; v ← rd row c; row' ← wr row c (v + 1); wr m r row'.

  (** utils.c:716-725, iteration i *)
  Definition cm_step (mo re : list V) (thr : V) (i : nat) (m : list (list nat)) : option (list (list nat)) :=
    x ← rd re i; y ← rd mo i;
    if geb x thr && geb y thr then incr m (i * 2 + 1) (i * 2 + 1)
    else if ltb x thr && ltb y thr then incr m (i * 2) (i * 2)
    else if geb x thr && ltb y thr then incr m (i * 2 + 1) (i * 2)
    else if ltb x thr && geb y thr then incr m (i * 2) (i * 2 + 1)
    else Some m.

  (** utils.c:702-728 confusion_matrix; [None] for cm is NULL *)
  Definition confusion_matrix (mo re : list V) (cm : option (list (list nat))) (size : nat) (thr : V) : option (list (list nat)) :=
    let m := match cm with None => replicate (2 * size) (replicate (2 * size) 0) | Some m => m end in
    for_loop size 0 (cm_step mo re thr) m.

  (** A program that accumulates the matrix over a dataset of (model output, real output) pairs, the
      first call with cm == NULL. *)
  Fixpoint accumulate (cm : option (list (list nat))) (data : list (list V * list V)) (size : nat) (thr : V) : option (list (list nat)) :=
    match data with
    | [] => cm
    | d :: data => m ← confusion_matrix d.1 d.2 cm size thr; accumulate (Some m) data size thr
    end.
End confusion.

(** [100*num/den], NaN replaced by 0 (num is always one of the terms of den, so den = 0 means 0/0) *)
Definition percent (num den : nat) : R := if decide (den = 0) then 0%R else (100 * INR num / INR den)%R.

Definition cell (m : list (list nat)) (r c : nat) : option nat := row ← rd m r; rd row c.

(** utils.c:738-749 accuracy_array, entry i *)
Definition accuracy (m : list (list nat)) (i : nat) : option R :=
  tn ← cell m (i*2) (i*2); tp ← cell m (i*2+1) (i*2+1); fn ← cell m (i*2+1) (i*2); fp ← cell m (i*2) (i*2+1);
  Some (percent (tn + tp) (tn + tp + fn + fp)).
(** utils.c:758-768 precision_array, entry i *)
Definition precision (m : list (list nat)) (i : nat) : option R :=
  tp ← cell m (i*2+1) (i*2+1); fp ← cell m (i*2) (i*2+1); Some (percent tp (tp + fp)).
(** utils.c:777-787 sensitivity_array, entry i *)
Definition sensitivity (m : list (list nat)) (i : nat) : option R :=
  tp ← cell m (i*2+1) (i*2+1); fn ← cell m (i*2+1) (i*2); Some (percent tp (tp + fn)).
(** utils.c:796-806 specificity_array, entry i *)
Definition specificity (m : list (list nat)) (i : nat) : option R :=
  tn ← cell m (i*2) (i*2); fp ← cell m (i*2) (i*2+1); Some (percent tn (tn + fp)).
