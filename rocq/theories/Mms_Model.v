(** Model of the normalization of the edge-popup scores of a whole model to the range from 0 to 1 (src/normalization.c).
    Arithmetic is over exact reals.  [None] is an access to an array that is NULL or too short, or a division by zero (a NaN in C). *)
From Verif Require Import NumLib.
From Coq Require Import Reals.
Notation vec := (list R).
Open Scope nat_scope.

(** the fields of an fcl or a cl that these functions use: the scores (None is NULL), the number of weights (input*output, or
    n_kernels*channels*kernel_rows*kernel_cols) and whether feed_forward_flag is ONLY_DROPOUT or convolutional_flag is NO_CONVOLUTION *)
Record layer := { scores : option vec; weights : nat; unweighted : bool }.
(** the layers of a model: fcls, cls and the cls of each of the rls *)
Record model := { fcls : list layer; cls : list layer; rls : list (list layer) }.

(** scores[j] *)
Definition score (l : layer) (j : nat) : option R := s ← scores l; rd s j.
(** the comparisons with min and max, normalization.c:742-746 and 823-826 *)
Definition widen (mm : R * R) (x : R) : R * R := (if decide (x < mm.1)%R then x else mm.1, if decide (x > mm.2)%R then x else mm.2).
(** normalization.c:822-827 *)
Definition search_layer (l : layer) (mm : R * R) : option (R * R) := for_loop (weights l) 0 (λ j mm, x ← score l j; Some (widen mm x)) mm.
Fixpoint search_layers (ls : list layer) (mm : R * R) : option (R * R) :=
  match ls with [] => Some mm | l :: r => mm ← search_layer l mm; search_layers r mm end.
Fixpoint search_rls (rs : list (list layer)) (mm : R * R) : option (R * R) :=
  match rs with [] => Some mm | r :: t => mm ← search_layers r mm; search_rls t mm end.
(** (scores[i]-min)/(max-min) *)
Definition scaled (mx mn x : R) : option R := if decide (mx - mn = 0)%R then None else Some ((x - mn) / (mx - mn))%R.
Definition scale_scores (mx mn : R) (n : nat) (l : layer) : option layer :=
  if decide (n = 0) then Some l else
  s ← scores l; s ← for_loop n 0 (λ i s, x ← rd s i; y ← scaled mx mn x; wr s i y) s;
  Some {| scores := Some s; weights := weights l; unweighted := unweighted l |}.
(** normalization.c:797-804 given_max_min_normalize_fcl and normalization.c:806-813 given_max_min_normalize_cl *)
Definition given_max_min_normalize (mx mn : R) (l : layer) : option layer := if unweighted l then Some l else scale_scores mx mn (weights l) l.
(** normalization.c:816-863 min_max_normalize_scores_among_all_leyers *)
Definition min_max_normalize (m : model) : option model :=
  mm ← search_layers (fcls m) (9999999, -9999999)%R;
  mm ← search_layers (cls m) mm;
  mm ← search_rls (rls m) mm;
  f ← mapM (given_max_min_normalize mm.2 mm.1) (fcls m);
  c ← mapM (given_max_min_normalize mm.2 mm.1) (cls m);
  r ← mapM (mapM (given_max_min_normalize mm.2 mm.1)) (rls m);
  Some {| fcls := f; cls := c; rls := r |}.
(** normalization.c:737-754 normalize_scores_among_fcl_layers and normalization.c:756-773 normalize_scores_among_cl_layers *)
Definition normalize_layer (l : layer) : option layer :=
  if unweighted l then Some l else mm ← search_layer l (999999999, -99999999)%R; scale_scores mm.2 mm.1 (weights l) l.
(** normalization.c:776-789 normalize_scores_among_all_internal_layers *)
Definition normalize_internal (m : model) : option model :=
  f ← mapM normalize_layer (fcls m); c ← mapM normalize_layer (cls m); r ← mapM (mapM normalize_layer) (rls m);
  Some {| fcls := f; cls := c; rls := r |}.
