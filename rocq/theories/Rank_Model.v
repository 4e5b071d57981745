(** Model of the merging of the edge-popup scores of several networks: get_sorted_probability_vector (src/math_functions.c) and
    readapt_scores, readapt_scores_float, set_float_vector_to_int_vector, scores_and_indices_readapter(_float) (src/utils.c).
    Arithmetic is over exact reals and the error function is an oracle.  [None] is an access outside an array.  A dqn is represented by
    the sizes of the score arrays of its layers, in the order in which they are visited. *)
From Verif Require Import NumLib.
From Coq Require Import Reals.
Notation vec := (list R).
Open Scope nat_scope.

Section rank.
  Context (erf : R -> R).
  (** math_functions.c:100-104, the value that is to be the probability that entry i is greater than entry j *)
  Definition prob_greater (mi si mj sj : R) : R :=
    let std_diff := R_sqrt.sqrt (si * si + sj * sj) in
    let q := (1 - 1 / 2 * erf ((mi - mj) / (R_sqrt.sqrt 2 * std_diff)))%R in
    if decide (1 < q)%R then (q - 1)%R else q.
  (** math_functions.c:97-108 *)
  Definition fill_prob (means std : vec) (n : nat) : option vec :=
    for_loop n 0 (λ i p, for_loop (n - S i) (S i) (λ j p,
      si ← rd std i; sj ← rd std j; mi ← rd means i; mj ← rd means j;
      p ← wr p (i * n + j) (prob_greater mi si mj sj);
      q ← rd p (i * n + j); wr p (j * n + i) (1 - q)%R) p) (repeat 0%R (n * n)).
  (** math_functions.c:109-122 *)
  Definition swap_step (n i j : nat) (st : vec * list nat) : option (vec * list nat) :=
    let '(p, index) := st in
    if decide (j = i) then Some (p, index)
    else
      a ← rd p (j * n + i); b ← rd p (i * n + j);
      if decide (a < b)%R then
        p ← wr p (i * n + j) a; p ← wr p (j * n + i) b;
        x ← rd index i; y ← rd index j; index ← wr index i y; index ← wr index j x; Some (p, index)
      else Some (p, index).
  (** math_functions.c:95-125 get_sorted_probability_vector *)
  Definition get_sorted (means std : vec) (n : nat) (index : list nat) : option (list nat) :=
    p ← fill_prob means std n;
    r ← for_loop n 0 (λ i st, for_loop (n - 1) 0 (λ j st, swap_step n i j st) st) (p, index);
    Some r.2.

  (** dueling_categorical_dqn.c:874-979 get_array_size_scores_index_dueling_categorical_dqn: the end of the first layer that ends after s *)
  Fixpoint next_end (ns : list nat) (acc s : nat) : nat :=
    match ns with [] => acc | n :: r => if decide (s < acc + n) then acc + n else next_end r (acc + n) s end.
  (** the values of last_sum and sum in the do-while loops (utils.c:1659-1665, 1676-1686, 1752-1756); all of them take the same ones *)
  Fixpoint pieces (fuel : nat) (ns : list nat) (s : nat) : option (list (nat * nat)) :=
    match fuel with
    | O => None
    | S f => let e := next_end ns 0 s in if decide (s = e) then Some [(s, e)] else r ← pieces f ns e; Some ((s, e) :: r)
    end.
  (** v+a as an array of b-a entries *)
  Definition slice {A} (l : list A) (a b : nat) : list A := take (b - a) (drop a l).
  Definition on_slice {A} (a b : nat) (f : list A -> option (list A)) (l : list A) : option (list A) :=
    if decide (a <= b /\ b <= length l) then r ← f (slice l a b); Some (take a l ++ r ++ drop b l) else None.
  Definition on_pieces {A} (f : nat -> nat -> list A -> option (list A)) : list (nat * nat) -> list A -> option (list A) :=
    fix go (ps : list (nat * nat)) (l : list A) : option (list A) := match ps with [] => Some l | (a, b) :: r => l ← f a b l; go r l end.
  (** utils.c:1653-1657: the sums over the networks, one for each connection *)
  Definition col_sums (values : list vec) (n : nat) : option vec :=
    mapM (λ i, for_loop (length values) 0 (λ j acc, row ← rd values j; x ← rd row i; Some (acc + x)%R) 0%R) (seq 0 n).
  (** utils.c:1668-1674 *)
  Definition col_devs (values : list vec) (means : vec) (n : nat) : option vec :=
    mapM (λ i, for_loop (length values) 0 (λ j acc, row ← rd values j; x ← rd row i; m ← rd means i; Some (acc + (x - m) * (x - m))%R) 0%R) (seq 0 n).
  (** utils.c:1647-1692 readapt_scores and 1694-1739 readapt_scores_float *)
  Definition readapt (values : list vec) (index : list nat) (n : nat) (ps : list (nat * nat)) : option (list nat) :=
    means ← col_sums values n;
    means ← on_pieces (λ a b, on_slice a b (λ v, Some (map (λ x, x / INR (b - a))%R v))) ps means;
    std ← col_devs values means n;
    on_pieces (λ a b index,
      index ← on_slice a b (λ _, Some (seq 0 (b - a))) index;
      if decide (a <> b) then on_slice a b (get_sorted (slice means a b) (map (λ x, x / INR (b - a))%R (slice std a b)) (b - a)) index else Some index) ps index.
  (** utils.c:1742-1747 set_float_vector_to_int_vector *)
  Definition set_by_rank (step : R) (v2 : list nat) (n : nat) (v1 : vec) : option vec :=
    for_loop n 0 (λ i v1, x ← rd v2 i; wr v1 x (INR i * step)%R) v1.
  (** copy_array and copy_int_array (utils.c:616-631) *)
  Definition copy_row {A} (n : nat) (src dst : list A) : option (list A) :=
    if decide (n <= length src /\ n <= length dst) then Some (take n src ++ drop n dst) else None.
  (** utils.c:1749-1765 and 1767-1783, for at least one network; [values] are the arrays that are averaged *)
  Definition readapter (values : list vec) (ns : list nat) (n : nat) (step : R) (indices : list (list nat)) (scores : list vec) : option (list (list nat) * list vec) :=
    ps ← pieces (S (length ns)) ns 0;
    match indices, scores with
    | index :: ir, score :: sr =>
        index ← readapt values index n ps;
        score ← on_pieces (λ a b, on_slice a b (set_by_rank step (slice index a b) (b - a))) ps score;
        sr ← mapM (copy_row n score) sr; ir ← mapM (copy_row n index) ir;
        Some (index :: ir, score :: sr)
    | _, _ => None
    end.
  Definition scores_and_indices_readapter (ns : list nat) (n : nat) (step : R) (indices : list (list nat)) (scores : list vec) :=
    readapter (map (map INR) indices) ns n step indices scores.
  Definition scores_and_indices_readapter_float (ns : list nat) (n : nat) (step : R) (indices : list (list nat)) (scores : list vec) :=
    readapter scores ns n step indices scores.
End rank.
