(** Model of quick_sort, quick_sort_int, merge_sort/merge/sort and argmax (src/utils.c). *)
From Verif Require Import Base Order.
Open Scope nat_scope.

Section quick.
  Context {V : Type} (ltb : V -> V -> bool).

  (** utils.c:866 [while (A[I[++i]] < pivot);]  Here [i] is the next position examined (the C
      variable after the increment).  Fuel bounds the number of positions examined. *)
  Fixpoint scan_up (fuel : nat) (A : list V) (I : list nat) (pivot : V) (i : nat) : option nat :=
    match fuel with
    | O => None
    | S f => k ← rd I i; v ← rd A k;
             if ltb v pivot then scan_up f A I pivot (i + 1) else Some i
    end.

  (** utils.c:867 [while (A[I[--j]] > pivot);]  [j] is the C variable before the decrement;
      reading I[-1] is undefined behaviour. *)
  Fixpoint scan_down (fuel : nat) (A : list V) (I : list nat) (pivot : V) (j : nat) : option nat :=
    match fuel with
    | O => None
    | S f => match j with
             | O => None
             | S j' => k ← rd I j'; v ← rd A k;
                       if ltb pivot v then scan_down f A I pivot j' else Some j'
             end
    end.

  (** utils.c:864-873, the [while(1)] loop; returns the array and the final [j]. *)
  Fixpoint partition_loop (fuel : nat) (A : list V) (I : list nat) (pivot : V) (i j : nat)
    : option (list nat * nat) :=
    match fuel with
    | O => None
    | S f =>
        i' ← scan_up (length I + 1) A I pivot i;
        j' ← scan_down (length I + 1) A I pivot j;
        if decide (j' <= i') then Some (I, j')
        else
          t ← rd I i'; u ← rd I j'; I1 ← wr I i' u; I2 ← wr I1 j' t;
          partition_loop f A I2 pivot (i' + 1) j'
    end.

  (** utils.c:857-877 quick_sort (and 889-909 quick_sort_int, the same text with int values).
      [lo], [hi] are C ints; the model covers non-negative ones (hi = -1 returns at once in C,
      see [quick_sort_array]). *)
  Fixpoint quick_sort (fuel : nat) (A : list V) (I : list nat) (lo hi : nat) : option (list nat) :=
    match fuel with
    | O => None
    | S f =>
        if decide (lo < hi) then
          k ← rd I (lo + (hi - lo) / 2); pivot ← rd A k;
          p ← partition_loop (length I + 1) A I pivot lo (hi + 1);
          I2 ← quick_sort f A p.1 lo p.2;
          quick_sort f A I2 (p.2 + 1) hi
        else Some I
    end.

  (** The documented call [quick_sort(A, I, 0, len-1)]. *)
  Definition quick_sort_array (A : list V) (I : list nat) : option (list nat) :=
    match length I with O => Some I | S h => quick_sort (S (length I)) A I 0 h end.
End quick.

(** merge_sort/merge: values are floats, copied into *int* arrays (utils.c:999-1012), i.e.
    truncated toward zero.  A value is modelled as a dyadic/decimal number num/den with a common
    positive denominator [den]: the float num/den truncates to [Z.quot num den]. *)
Section merge.
  Context (den : Z).
  Definition to_int (x : Z) : Z := Z.quot x den.

  (** utils.c:1013-1035: the three while loops; the arguments are the not yet consumed parts of
      (leftArray,leftIndices) and (rightArray,rightIndices); the result is what is written to
      indices[left..right]. *)
  Fixpoint merge_loop (l r : list (Z * nat)) : list nat :=
    let fix go (r : list (Z * nat)) : list nat :=
      match l, r with
      | [], _ => map snd r
      | _, [] => map snd l
      | x :: l', y :: r' => if (x.1 <=? y.1)%Z then x.2 :: merge_loop l' r else y.2 :: go r'
      end in go r.

  (** utils.c:995-1036 merge: leftArray = (int) values[left..middle], read at those *positions*
      (not through [indices]), leftIndices = indices[left..middle], and the same on the right. *)
  Definition merge_seg (values : list Z) (indices : list nat) (left middle right : nat) : option (list nat) :=
    if decide (left <= middle < right /\ right < length indices /\ right < length values) then
      let seg {X} (l : list X) a b := take (b + 1 - a) (drop a l) in
      let lv := map to_int (seg values left middle) in
      let rv := map to_int (seg values (middle + 1) right) in
      let li := seg indices left middle in
      let ri := seg indices (middle + 1) right in
      Some (take left indices ++ merge_loop (zip lv li) (zip rv ri) ++ drop (right + 1) indices)
    else None.

  (** utils.c:972-981 merge_sort; [sort] (1100-1105) calls it with the same arguments. *)
  Fixpoint merge_sort (fuel : nat) (values : list Z) (indices : list nat) (low high : nat) : option (list nat) :=
    match fuel with
    | O => None
    | S f =>
        if decide (low < high) then
          let middle := low + (high - low) / 2 in
          i1 ← merge_sort f values indices low middle;
          i2 ← merge_sort f values i1 (middle + 1) high;
          merge_seg values i2 low middle high
        else Some indices
    end.
  Definition sort_array (values : list Z) (indices : list nat) : option (list nat) :=
    match length indices with O => Some indices | S h => merge_sort (S (length indices)) values indices 0 h end.
End merge.

(** utils.c:1284-1296 argmax.  The result is a C int, -1 for an empty vector. *)
Section argmax.
  Context {V : Type} (ltb : V -> V -> bool).
  Definition argmax_step (st : nat * V) (ix : nat * V) : nat * V :=
    if ltb st.2 ix.2 then ix else st.
  Definition argmax (v : list V) : Z :=
    match v with
    | [] => -1
    | x :: _ => Z.of_nat (foldl argmax_step (0, x) (imap pair v)).1
    end.
End argmax.
