(** Model of the indexed max-heap of src/utils.c:1298-1364.

    [values] are the priorities (one per buffer slot), [ind] is the heap: ind[k] is the slot at heap
    position k; [rev] is its inverse: rev[slot] is the heap position of the slot.  The functions
    only modify [ind] and [rev]. *)
From Verif Require Import Base Order.
Open Scope nat_scope.

Section heap.
  Context {V : Type} (ltb : V -> V -> bool) (values : list V).

  (** values[indices[k]] *)
  Definition prio (ind : list nat) (k : nat) : option V := a ← rd ind k; rd values a.

  (** utils.c:1315-1319 (= 1340-1344):
      [x = indices[i]; indices[i] = indices[l]; reverse[indices[l]] = i; reverse[x] = l; indices[l] = x] *)
  Definition swap_entries (ind rev : list nat) (i l : nat) : option (list nat * list nat) :=
    x ← rd ind i; y ← rd ind l;
    ind1 ← wr ind i y; y1 ← rd ind1 l;
    rev1 ← wr rev y1 i; rev2 ← wr rev1 x l;
    ind2 ← wr ind1 l x;
    Some (ind2, rev2).

  (** utils.c:1307-1308, 1310-1311: [if (c < n && values[indices[c]] >= values[indices[largest]]) largest = c;] *)
  Definition pick_larger (ind : list nat) (n c largest : nat) : option nat :=
    if decide (c < n) then
      vc ← prio ind c; vl ← prio ind largest;
      Some (if ltb vc vl then largest else c)
    else Some largest.

  (** utils.c:1301-1322 max_heapify (recursion on fuel; C recurses without bound) *)
  Fixpoint max_heapify (fuel : nat) (ind rev : list nat) (n i : nat) : option (list nat * list nat) :=
    match fuel with
    | O => None
    | S f =>
        l1 ← pick_larger ind n (2 * i + 1) i;
        largest ← pick_larger ind n (2 * i + 2) l1;
        if decide (largest = i) then Some (ind, rev)
        else p ← swap_entries ind rev i largest; max_heapify f p.1 p.2 n largest
    end.

  (** utils.c:1332-1335: [if(i%2) parent = (i-1)/2; else parent = (i-2)/2;] *)
  Definition c_parent (i : nat) : nat := if Nat.odd i then (i - 1) / 2 else (i - 2) / 2.

  (** utils.c:1326-1347 max_heapify_up (its argument n is unused) *)
  Fixpoint max_heapify_up (fuel : nat) (ind rev : list nat) (i : nat) : option (list nat * list nat) :=
    match fuel with
    | O => None
    | S f =>
        if decide (i = 0) then Some (ind, rev)
        else
          let parent := c_parent i in
          vp ← prio ind parent; vi ← prio ind i;
          if ltb vi vp then Some (ind, rev)
          else p ← swap_entries ind rev i parent; max_heapify_up f p.1 p.2 parent
    end.

  (** utils.c:1349-1364 remove_ith_element_from_max_heap.  The removed slot ends at position n-1.
      Lines 1355-1359: reverse[indices[i]] = n-1; reverse[indices[n-1]] = i; swap indices[i], indices[n-1]. *)
  Definition remove_ith (ind rev : list nat) (n i : nat) : option (list nat * list nat) :=
    if decide (n <= i) then Some (ind, rev)
    else
      value1 ← prio ind i; value2 ← prio ind (n - 1);
      x ← rd ind i; y ← rd ind (n - 1);
      rev1 ← wr rev x (n - 1); rev2 ← wr rev1 y i;
      ind1 ← wr ind i y; ind2 ← wr ind1 (n - 1) x;
      if ltb value2 value1 then max_heapify (n + 1) ind2 rev2 (n - 1) i
      else if ltb value1 value2 then max_heapify_up (n + 1) ind2 rev2 i
      else Some (ind2, rev2).
End heap.
