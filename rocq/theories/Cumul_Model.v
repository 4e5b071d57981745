(** Model of the cumulative tree and the weighted sampling of src/utils.c:1366-1543 and of the
    sampling loop of src/rainbow.c:1599-1608.  Numbers are exact reals (C: float/double). *)
From Verif Require Import RealSum Heap_Model.
Open Scope nat_scope.

(** utils.c:1366-1384 update_recursive_cumulative_heap_up(values, index, started_index, n, value):
    adds [value] to every proper ancestor of [index] (to [index] itself only if started_index = 0).
    The argument n is unused in C. *)
Fixpoint update_up (fuel : nat) (cum : list R) (index : nat) (started : bool) (value : R) : option (list R) :=
  match fuel with
  | O => None
  | S f =>
      cum1 ← (if started then Some cum else x ← rd cum index; wr cum index (x + value)%R);
      if decide (index = 0) then Some cum1 else update_up f cum1 (c_parent index) false value
  end.

(** rainbow.c:1300-1302 (add_buffer_state) and 1849-1854, 1401-1526 (reward sampling): the weight of
    element [index] changes from [old] to [new]; the tree is updated by the difference and the total
    is adjusted.  In the first case the old weight is 0 (calloc). *)
Record tree := mkTree { weights : list R; cumul : list R; total : R }.
Definition init_tree (n : nat) : tree := mkTree (replicate n 0%R) (replicate n 0%R) 0%R.
Definition change_weight (t : tree) (index : nat) (new : R) : option tree :=
  old ← rd (weights t) index;
  w1 ← wr (weights t) index new;
  c1 ← update_up (index + 1) (cumul t) index true (new - old)%R;
  Some (mkTree w1 c1 (total t - old + new)%R).
Fixpoint change_weights (t : tree) (changes : list (nat * R)) : option tree :=
  match changes with [] => Some t | (i, w) :: cs => t' ← change_weight t i w; change_weights t' cs end.

(** utils.c:1386-1394 index_is_inside_buffer *)
Definition inside (buffer : list nat) (index : nat) : bool := bool_decide (index ∈ buffer).

(** utils.c:1396-1408 value_is_child: the do-while loop climbs to the parent until it is <= parent *)
Fixpoint climb (fuel child parent : nat) : nat :=
  match fuel with
  | O => child
  | S f => let c := c_parent child in if decide (parent < c) then climb f c parent else c
  end.
Definition value_is_child (child parent : nat) : bool :=
  if decide (child <= parent) then false else bool_decide (climb child child parent = parent).

(** utils.c:1410-1420 subtracted_value: total weight of the distinct taken elements strictly below index *)
Definition subtracted_value (index : nat) (cur : list R) (taken : list nat) : option R :=
  for_loop (length taken) 0 (fun i ret =>
    t ← rd taken i;
    if inside (take i taken) t then Some ret
    else if value_is_child t index then w ← rd cur t; Some (ret + w)%R else Some ret) 0%R.

(** utils.c:1453-1456: the first element in [index+1, size) that is not taken, else [default] *)
Definition first_untaken (taken : list nat) (index size default : nat) : nat :=
  match filter (fun i => inside taken i = false) (seq (index + 1) (size - (index + 1))) with
  | i :: _ => i
  | [] => default
  end.

(** utils.c:1436-1484 weighted_random_sample *)
Fixpoint weighted_sample (fuel : nat) (cum cur : list R) (taken : list nat) (size : nat) (sum : R)
    (index : nat) (rv : R) : option nat :=
  match fuel with
  | O => None
  | S f =>
      if decide (size <= index) then (if decide (index = 0) then None else Some (index - 1))
      else
        v ← (if inside taken index then Some 0%R else w ← rd cur index; Some (w / sum)%R);
        if (if inside taken index then false else if Rle_dec rv v then true else false) then Some index
        else
          let left := 2 * index + 1 in
          let right := 2 * index + 2 in
          if decide (size <= left) then Some (first_untaken taken index size index)
          else if decide (size <= right) then
            Some (if inside taken left then first_untaken taken index size left else left)
          else
            v_left ← (if inside taken left then Some 0%R else rd cur left);
            sub ← subtracted_value left cur taken;
            cl ← rd cum left;
            let rv1 := (rv - v)%R in
            let share := ((v_left + cl - sub) / sum)%R in
            if Rle_dec rv1 share then weighted_sample f cum cur taken size sum left rv1
            else weighted_sample f cum cur taken size sum right (rv1 - share)%R
  end.

(** rainbow.c:1598-1608: draws of the ranked sampling loop; [draws] are the values of r2();
    [taken] is reverse_batch[0..i), [over_sum] the remaining total. *)
Fixpoint sample_batch (cum cur : list R) (size : nat) (draws : list R) (taken : list nat) (over_sum : R) : option (list nat) :=
  match draws with
  | [] => Some taken
  | p :: ps =>
      val ← weighted_sample (size + 1) cum cur taken size over_sum 0 p;
      w ← rd cur val;
      let over_sum1 := if inside taken val then over_sum else (over_sum - w)%R in
      sample_batch cum cur size ps (taken ++ [val]) over_sum1
  end.
