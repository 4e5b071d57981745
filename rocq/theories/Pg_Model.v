(** Model of src/policy_gradient.c, of policy_gradient_model_error (src/model.c:9236-9303) and of
    sample_softmax_with_temperature (src/math_functions.c:186-222), over exact reals.  [None] is an access outside a
    buffer, a read of a value that was never written, or a null pointer.  Networks are their parameters [P] (with the state of the optimiser) and a
    sum of partial derivatives [G]; what forward pass, backward pass, clipping and update compute are parameters of the
    model, as in Iq_Model. *)
From Verif Require Import NumLib Softmax_Model Sort_Model Iq_Model.
From Coq Require Import Reals.
Open Scope nat_scope.

(** conversion of a float to an int: towards zero *)
Definition trunc (x : R) : Z := if decide (0 <= x)%R then Int_part x else (- Int_part (- x))%Z.

(** utils.c:995-1036 merge; as Sort_Model.merge_seg, with real values: the copies of the values are ints, and they are
    read at positions, not through the indices *)
Definition merge (values : vec) (indices : list nat) (left middle right : nat) : option (list nat) :=
  if decide (left <= middle < right /\ right < length indices /\ right < length values) then
    let seg {X} (l : list X) a b := take (b + 1 - a) (drop a l) in
    Some (take left indices ++
      merge_loop (zip (map trunc (seg values left middle)) (seg indices left middle))
                 (zip (map trunc (seg values (middle + 1) right)) (seg indices (middle + 1) right)) ++ drop (right + 1) indices)
  else None.
(** utils.c:972-981 merge_sort, called by sort (1100-1105) *)
Fixpoint merge_sort (fuel : nat) (values : vec) (indices : list nat) (low high : nat) : option (list nat) :=
  match fuel with
  | 0 => None
  | S f =>
    if decide (low < high) then
      let middle := low + (high - low) / 2 in
      i1 ← merge_sort f values indices low middle; i2 ← merge_sort f values i1 (middle + 1) high; merge values i2 low middle high
    else Some indices
  end.
(** math_functions.c:205: sort(output, indices, 0, size-1), a no-op for size 0 *)
Definition sort (values : vec) (indices : list nat) : option (list nat) :=
  match length indices with 0 => Some indices | S h => merge_sort (S (length indices)) values indices 0 h end.

(** math_functions.c:207-214: the loop with break; the inner [None] is index = -1 *)
Fixpoint pick (output : vec) (indices : list nat) (r : R) : option (option nat) :=
  match indices with
  | [] => Some None
  | k :: indices => p ← rd output k; if decide (p <= r)%R then Some (Some k) else pick output indices (r - p)%R
  end.
(** math_functions.c:186-222 sample_softmax_with_temperature; r is the value of r2().  The result is the index, an int, and
    the input array, which is changed.  Lines 194-204 are softmax (math_functions.c:158-172, the same text) and the identity
    as indices. *)
Definition sample (input : vec) (temperature : R) (size : nat) (r : R) : option (Z * vec) :=
  input ← for_loop size 0 (λ i l, x ← rd l i; wr l i (x / temperature)%R) input;
  output ← softmax input (replicate size 0%R) size;
  indices ← sort output (seq 0 size);
  k ← pick output indices r;
  match k with
  | Some k => Some (Z.of_nat k, input)
  | None => last ← rd indices (size - 1); p ← rd output last; Some (trunc p, input)
  end.

(** mul_value (model.c:9249, 9252, 9296): output[i] = input[i]*value *)
Definition mul_value (input : vec) (value : R) (output : vec) (size : nat) : option vec :=
  for_loop size 0 (λ i l, x ← rd input i; wr l i (x * value)%R) output.

(** model.c:9236-9303 policy_gradient_model_error: [out] is the output layer, [other] the second argument (may be null),
    [alpha] error_alpha, [error0] the array error before, th1, th2, T the thresholds and gamma *)
Definition policy_error (out : vec) (other : option vec) (alpha error0 : vec) (th1 th2 T : R) (n : nat) : option vec :=
  let zero := replicate n 0%R in
  q2 ← (if decide (0 < th2)%R then o ← other; t ← mul_value o (1 / T) zero n; softmax t zero n else Some zero);
  t ← mul_value out (1 / T) zero n;
  q ← softmax t zero n;
  (* 9254: the first two probabilities are printed *)
  _ ← rd q 0; _ ← rd q 1;
  e ← for_loop n 0 (λ i e, a ← rd alpha i; x ← rd q i; wr e i (-1 / x * a)%R) zero;
  e ← (if decide (0 < th1)%R then
         for_loop n 0 (λ i e, x ← rd q i; y ← rd e i; wr e i (if decide (x = 0) then y - th1 * (1 - 999) else y - th1 * (1 + ln x))%R) e
       else Some e);
  e ← (if decide (0 < th2)%R then
         s ← sum_loop n (λ i, x ← rd q2 i; y ← rd q i; Some ((x - y) * (x - y))%R) 0%R;
         let s := R_sqrt.sqrt s in
         if decide (0 < s)%R then for_loop n 0 (λ i e, x ← rd q2 i; y ← rd q i; z ← rd e i; wr e i (z - th2 * (y - x) / s)%R) e else Some e
       else Some e);
  err ← derivative_softmax error0 q e n;
  for_loop n 0 (λ i l, x ← rd l i; wr l i (x * (1 / T))%R) err.

Section train.
  Context {P G O : Type} (g0 : G) (gadd : G -> G -> G).
  Context (fwd : P -> vec -> vec) (bwd : P -> vec -> vec -> G) (clip : R -> P -> G -> G) (upd : O -> nat -> P -> G -> P) (next : O -> O).

  (** the parameters that init_policy_gradient stores (policy_gradient.c:73-99); adaptive_clipping_gradient_value is not stored: the
      field keeps what malloc returned, [None] here *)
  Record pg := mkPg { batch : nat; threads : nat; clipping : bool; clipping_value : option R; temperature : R; th1 : R; th2 : R; outdim : nat }.
  (** policy_gradient.c:28-125, the checks of the other flags and of null pointers left out *)
  Definition init_policy_gradient (batch_size threads : nat) (flag : bool) (value softmax_temperature : R)
      (entropy_flag : bool) (entropy_alpha : R) (dde_flag : bool) (dde_alpha : R) (outdim : nat) : pg :=
    mkPg batch_size (if decide (batch_size < threads) then batch_size else threads) flag None softmax_temperature
      ((if entropy_flag then 1 else 0) * entropy_alpha)%R ((if dde_flag then 1 else 0) * dde_alpha)%R outdim.

  (** policy_gradient.c:146-151, 157-162: error_alpha *)
  Definition set_alpha (n : nat) (a : Z) (reward : R) (l : vec) : option vec :=
    for_loop n 0 (λ j l, wr l j (if decide (a = Z.of_nat j) then reward else 0%R)) l.
  (** policy_gradient.c:152, ff_error_bp_model_once (model.c:9523-9535); the array error is 0 before, the reset functions clear it (model.c:754, 730) *)
  Definition one (c : pg) (p : P) (states : list vec) (rewards : vec) (actions : list Z) (dde : option (list vec)) (i : nat) : option G :=
    other ← match dde with None => Some None | Some l => x ← rd l i; Some (Some x) end;
    a ← rd actions i; r ← rd rewards i; s ← rd states i;
    alpha ← set_alpha (outdim c) a r (replicate (outdim c) 0%R);
    e ← policy_error (fwd p s) other alpha (replicate (outdim c) 0%R) (th1 c) (th2 c) (temperature c) (outdim c);
    Some (bwd p s e).
  (** policy_gradient.c:141-170: threads have their own derivatives, which are added and cleared *)
  Definition group (c : pg) (p : P) (states : list vec) (rewards : vec) (actions : list Z) (dde : option (list vec)) (i m : nat) (g : G) : option G :=
    if decide (threads c = 1) then x ← one c p states rewards actions dde i; Some (gadd g x)
    else xs ← mapM (λ z, x ← one c p states rewards actions dde z; Some (gadd g0 x)) (seq i m); Some (fold_left gadd xs g).
  (** policy_gradient.c:127-181 policy_gradient_training_passage; the derivatives are cleared at the end (reset_model).  [next] changes
      the learning rate, the powers of the betas and the counter. *)
  Definition training_passage (c : pg) (p : P) (g : G) (o : O) (states : list vec) (rewards : vec) (actions : list Z) (dde : option (list vec))
      (length batch_size : nat) : option (P * G * O) :=
    g ← group_loop (S length) (threads c) length (group c p states rewards actions dde) 0 g;
    g ← (if clipping c then v ← clipping_value c; Some (clip v p g) else Some g);
    Some (upd o batch_size p g, g0, next o).

  (** copy_array *)
  Definition copy (src dst : vec) (n : nat) : option vec := for_loop n 0 (λ i l, x ← rd src i; wr l i x) dst.
  (** policy_gradient.c:183-208 get_policies; [input_size] is the size of the input layer, inputs are [size] arrays.  The threads' networks
      are an array of [threads] networks: resetting ms[i] outside of it is [None]; that resetting ms[i] leaves the networks ms[j] that
      were used unreset is not modelled. *)
  Definition get_policies (c : pg) (p : P) (input_size : nat) (inputs : list vec) (size : nat) : option (list vec) :=
    for_loop ((size + threads c - 1) / threads c) 0 (λ b ps,
      let i := b * threads c in
      let m := Nat.min (threads c) (size - i) in
      if decide (threads c = 1) then
        x ← rd inputs i; q ← rd ps i; q ← copy (fwd p x) q (outdim c); wr ps i q
      else
        for_loop m 0 (λ j ps, x ← rd inputs (i + j); q ← rd ps (i + j); q ← copy x q (outdim c); ps ← wr ps (i + j) q;
          if decide (i < threads c) then Some ps else None) ps)
      (replicate size (replicate input_size 0%R)).
End train.
