(** Inverse Q-learning on recorded transitions, written down without threads, groups and buffers. *)
From Verif Require Import NumLib Iq_Model.
From Coq Require Import Reals.
Open Scope nat_scope.

(** soft value alpha1 * ln (sum_i e^(Q_i/alpha1)) of a state with action values q *)
Definition soft_value (alpha1 : R) (q : vec) : R := (alpha1 * ln (sumn (length q) (λ i, exp (el q i / alpha1))))%R.
(** the documented loss (model.c:9203-9211) of taking action a in a state with action values q when the soft value
    of the next state is v: -(Q_a - gamma v) + V(q) + 1/(4 alpha2 (Q_a - gamma v)^2), where V is the soft value *)
Definition iq_loss (scale : R) (alpha1 alpha2 gamma v : R) (a : nat) (q : vec) : R :=
  (- (el q a - gamma * v) + soft_value alpha1 q * scale + / (4 * alpha2 * ((el q a - gamma * v) * (el q a - gamma * v))))%R.

Section spec.
  Context {P G O : Type} (gadd : G -> G -> G).
  Context (fwd : P -> vec -> vec) (bwd : P -> vec -> vec -> G) (clip : P -> G -> G) (upd : O -> P -> G -> P) (next : O -> O).

  (** transition i has a next state: it is not marked done and it is not the last one *)
  Definition continues (q : iq) (i : nat) : bool := negb (nth i (done q) true) && bool_decide (i <> size q - 1).
  Definition next_values (q : iq) (p : P) (i : nat) : vec :=
    if continues q i then fwd p (nth (S i) (states q) []) else replicate (outdim q) 0%R.
  (** the derivatives of the parameters for transition i: the network's outputs for its state are moved along
      the derivative e of the loss *)
  Definition transition_grad (q : iq) (p : P) (i : nat) : G :=
    let s := nth i (states q) [] in
    bwd p s (default [] (derivative_inverse_q (fwd p s) (next_values q p i) (replicate (outdim q) 0%R) (one_hot (outdim q) (nth i (actions q) 0%Z))
      (alpha1 q) (alpha2 q) (if continues q i then gamma q else 0%R) (outdim q))).
  (** add up the transitions of a batch, to what is there *)
  Definition batch_grad (q : iq) (p : P) (l : list nat) (g : G) : G := fold_left (λ g i, gadd g (transition_grad q p i)) l g.
  Definition batch_step (q : iq) (l : list nat) (st : P * G * O) : P * G * O :=
    let '(p, g, o) := st in let g := clip p (batch_grad q p l g) in (upd o p g, g, next o).
  (** the consecutive batches of an order of the transitions *)
  Definition batches (q : iq) (order : list nat) : list (list nat) :=
    (λ b, take (batch_size q) (drop (b * batch_size q) order)) <$> seq 0 (size q `div` batch_size q).
  Definition epoch_step (q : iq) (order : list nat) (st : P * G * O) : P * G * O := fold_left (λ st l, batch_step q l st) (batches q order) st.
  Fixpoint run (q : iq) (i : nat) (orders : list (list nat)) (st : P * G * O) : P * G * O * list (nat * P) :=
    match orders with
    | [] => (st, [])
    | o :: orders => let st' := epoch_step q o st in let r := run q (S i) orders st' in (fst r, (i, fst (fst st')) :: snd r)
    end.

  (** the data an agent can be trained on *)
  Definition data_ok (q : iq) : Prop :=
    length (states q) = size q /\ length (actions q) = size q /\ length (done q) = size q /\
    0 < batch_size q /\ 0 < threads q /\ size q = size q `div` batch_size q * batch_size q.
  Definition set_threads (n : nat) (q : iq) : iq :=
    mkIq (states q) (actions q) (done q) (size q) (batch_size q) n (alpha1 q) (alpha2 q) (gamma q) (outdim q).
End spec.
