(** Model of src/iq.c (train_iqn) and of the derivative it trains with
    (math_functions.c:431-456 derivative_inverse_q_function_array).  Exact reals; [None] is an access outside
    a buffer.  Networks are their parameters [P] (with the state of the optimiser) and a sum of partial
    derivatives [G]; what forward pass, backward pass, clipping and update compute are parameters of the
    model.  The time step is an int that is passed as a pointer to a 64 bit integer (iq.c:277, 282): undefined
    behaviour in C, modelled as if it had the right type.  Networks without normalization layers: for those
    reset_model_only_for_ff (iq.c:204) clears the derivatives of the normalization, too. *)
From Verif Require Import NumLib Shuffle_Model.
From Coq Require Import Reals.
Open Scope nat_scope.

Notation vec := (list R).

(** math_functions.c:431-456; the output buffer is added to for actions that were not taken *)
Definition derivative_inverse_q (current next output action : vec) (alpha1 alpha2 gamma : R) (size : nat) : option vec :=
  y ← (if decide (0 < gamma)%R then
         s ← sum_loop size (λ i, x ← rd next i; Some (exp (x / alpha1))) 0%R;
         Some (alpha1 * ln s / INR size)%R
       else Some 0%R);
  d ← sum_loop size (λ i, x ← rd current i; Some (exp (x / alpha1))) 0%R;
  for_loop size 0 (λ i out,
    a ← rd action i; q ← rd current i; o ← rd out i;
    let o := if decide (0 < a)%R then
               let temp := (q - gamma * y)%R in
               (-1 - 2 / ((4 * alpha2) * (temp * temp * temp)))%R
             else o in
    wr out i (o + exp (q / alpha1) / (INR size * d))%R) output.

(** iq.c:237-241, 252-257: the action as a vector *)
Definition one_hot (n : nat) (a : Z) : vec := (λ z, if decide (Z.of_nat z = a) then 1%R else 0%R) <$> seq 0 n.

(** for each number of the list in turn *)
Fixpoint each {A} (f : nat -> A -> option A) (l : list nat) (a : A) : option A :=
  match l with [] => Some a | z :: l => a' ← f z a; each f l a' end.

(** iq.c:193-198, 228-233: [for(k = lo; k < hi; k += min)] with [min] at most the number of threads and what is left *)
Fixpoint group_loop {A} (fuel : nat) (threads hi : nat) (body : nat -> nat -> A -> option A) (k : nat) (a : A) : option A :=
  if decide (k < hi) then
    match fuel with
    | 0 => None
    | S fuel => let m := Nat.min threads (hi - k) in a' ← body k m a; group_loop fuel threads hi body (k + m) a'
    end
  else Some a.

Section train.
  Context {P G O : Type} (g0 : G) (gadd : G -> G -> G).
  Context (fwd : P -> vec -> vec) (bwd : P -> vec -> vec -> G) (clip : P -> G -> G) (upd : O -> P -> G -> P) (next : O -> O).
  (** clip is adaptive_gradient_clipping_model if the flag is set and nothing otherwise (iq.c:273-275); next
      changes the learning rate, the powers of the betas and the time step (iq.c:279-282) *)

  Record iq := mkIq { states : list vec; actions : list Z; done : list bool; size : nat; batch_size : nat; threads : nat;
    alpha1 : R; alpha2 : R; gamma : R; outdim : nat }.

  (** iq.c:201, 210, 218, 243, 258: there is a next state *)
  Definition has_next (q : iq) (idx : nat) : option bool :=
    d ← rd (done q) idx; Some (negb d && bool_decide (idx <> size q - 1)).

  (** iq.c:200-206: one thread *)
  Definition next_one (q : iq) (p : P) (index : list nat) (j k : nat) (nq : list vec) : option (list vec) :=
    idx ← rd index k; h ← has_next q idx;
    if (h : bool) then s ← rd (states q) (idx + 1); wr nq (k - j) (fwd p s) else Some nq.
  (** iq.c:209-216: the inputs of the threads *)
  Fixpoint gather (q : iq) (index : list nat) (zs : list nat) : option (list vec) :=
    match zs with
    | [] => Some []
    | z :: zs => idx ← rd index z; h ← has_next q idx;
      if (h : bool) then s ← rd (states q) (idx + 1); r ← gather q index zs; Some (s :: r) else gather q index zs
    end.
  (** iq.c:217-223: the outputs, in the same order *)
  Fixpoint scatter (q : iq) (index : list nat) (j : nat) (zs : list nat) (outs : list vec) (nq : list vec) : option (list vec) :=
    match zs with
    | [] => Some nq
    | z :: zs => idx ← rd index z; h ← has_next q idx;
      if (h : bool) then match outs with [] => None | o :: outs => nq' ← wr nq (z - j) o; scatter q index j zs outs nq' end
      else scatter q index j zs outs nq
    end.
  (** iq.c:200-224 *)
  Definition next_group (q : iq) (p : P) (index : list nat) (j k m : nat) (nq : list vec) : option (list vec) :=
    if decide (threads q = 1) then next_one q p index j k nq
    else inputs ← gather q index (seq k m); scatter q index j (seq k m) (fwd p <$> inputs) nq.

  (** iq.c:236-248, 251-264: forward pass, derivative of the loss and backward pass for one transition *)
  Definition one_grad (q : iq) (p : P) (index : list nat) (nq : list vec) (j k : nat) : option G :=
    idx ← rd index k; a ← rd (actions q) idx; h ← has_next q idx; s ← rd (states q) idx; n ← rd nq (k - j);
    e ← derivative_inverse_q (fwd p s) n (replicate (outdim q) 0%R) (one_hot (outdim q) a) (alpha1 q) (alpha2 q)
          (if (h : bool) then gamma q else 0%R) (outdim q);
    Some (bwd p s e).
  (** iq.c:235-269; with threads every thread has its own derivatives, which are cleared after they are added *)
  Definition train_group (q : iq) (p : P) (index : list nat) (nq : list vec) (j k m : nat) (g : G) : option G :=
    if decide (threads q = 1) then x ← one_grad q p index nq j k; Some (gadd g x)
    else xs ← mapM (λ z, x ← one_grad q p index nq j z; Some (gadd g0 x)) (seq k m); Some (fold_left gadd xs g).

  (** iq.c:192-287: the batch that starts at j; the derivatives of the network are not cleared *)
  Definition train_batch (q : iq) (index : list nat) (b : nat) (st : P * G * O) : option (P * G * O) :=
    let '(p, g, o) := st in
    let j := b * batch_size q in
    let hi := Nat.min (size q) (j + batch_size q) in
    nq ← group_loop (size q) (threads q) hi (next_group q p index j) j (replicate (batch_size q) (replicate (outdim q) 0%R));
    g ← group_loop (size q) (threads q) hi (train_group q p index nq j) j g;
    let g := clip p g in
    Some (upd o p g, g, next o).

  (** iq.c:188-291: the epochs; the index array stays shuffled; saved are the number of the epoch (the name of the
      file) and the parameters.  init_iq (iq.c:96-99) has checked that the batch size divides the size. *)
  Fixpoint epochs (rmax : Z) (rand : nat -> nat -> Z) (q : iq) (i n : nat) (index : list nat) (st : P * G * O) : option (P * G * O * list (nat * P)) :=
    match n with
    | 0 => Some (st, [])
    | S n =>
      index ← shuffle_matrix rmax (rand i) index (size q);
      st ← each (train_batch q index) (seq 0 (size q `div` batch_size q)) st;
      r ← epochs rmax rand q (S i) n index st;
      Some (fst (A := P * G * O) (B := list (nat * P)) r, (i, fst (fst st)) :: snd (A := P * G * O) (B := list (nat * P)) r)
    end.
  Definition train_iqn (rmax : Z) (rand : nat -> nat -> Z) (q : iq) (n : nat) (st : P * G * O) : option (P * G * O * list (nat * P)) :=
    epochs rmax rand q 0 n (seq 0 (size q)) st.
End train.
