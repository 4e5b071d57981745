(** Specification of an LSTM network (Hochreiter-Schmidhuber cell with forget gate) with fixed dropout masks on
    the recurrent and on the vertical connections, written with the mathematical logistic function and tanh. *)
From Verif Require Import NumLib Lstm_Model.
Open Scope R_scope.

Inductive gate := Forget | Input | Output | Candidate.
Definition at_gate (q : quad) (g : gate) : list R :=
  match g with Forget => q_f q | Input => q_i q | Output => q_o q | Candidate => q_c q end.
Definition logi (x : R) : R := / (1 + exp (- x)).

(** W_g x + U_g h + b_g *)
Definition affine (w u b : quad) (n m : nat) (x h : list R) (g : gate) (i : nat) : R :=
  sumn n (fun j => el (at_gate w g) (i * n + j)%nat * el x j) + sumn m (fun j => el (at_gate u g) (i * m + j)%nat * el h j) + el (at_gate b g) i.
(** new cell and hidden state, from the pre-activations and the old cell state *)
Definition new_cell (a : gate -> nat -> R) (c : list R) (i : nat) : R :=
  logi (a Forget i) * el c i + logi (a Input i) * tanh (a Candidate i).
Definition new_hidden (a : gate -> nat -> R) (c : list R) (i : nat) : R := logi (a Output i) * tanh (new_cell a c i).

Definition masked (m : nat) (mask v : list R) : list R := map (fun i => el mask i * el v i) (seq 0 m).
(** one layer: new hidden state, new cell state and output *)
Definition layer_step (l : lstm) (x h c : list R) : list R * list R * list R :=
  let a := affine (l_w l) (l_u l) (l_b l) (l_in l) (l_out l) x (masked (l_out l) (l_right l) h) in
  let h' := map (new_hidden a c) (seq 0 (l_out l)) in
  (h', map (new_cell a c) (seq 0 (l_out l)), masked (l_out l) (l_up l) h').
(** one time step of the stack of layers: the new states and the output of the top layer *)
Fixpoint stack_step (ls : list lstm) (x : list R) (prev : list (list R * list R)) : list (list R * list R) * list R :=
  match ls, prev with
  | l :: ls, p :: prev =>
      let r := layer_step l x p.1 p.2 in
      let rest := stack_step ls r.2 prev in (r.1 :: rest.1, rest.2)
  | _, _ => ([], x)
  end.
(** sum over time of <errs[t], output[t]> *)
Fixpoint loss (m : nat) (ls : list lstm) (prev : list (list R * list R)) (inputs errs : list (list R)) : R :=
  match inputs, errs with
  | x :: inputs, e :: errs =>
      let r := stack_step ls x prev in
      sumn m (fun i => el e i * el r.2 i) + loss m ls r.1 inputs errs
  | _, _ => 0
  end.

Definition qlen (n : nat) (q : quad) : Prop := forall g, length (at_gate q g) = n.
Definition layer_ok (l : lstm) : Prop :=
  qlen (l_out l * l_in l) (l_w l) /\ qlen (l_out l * l_out l) (l_u l) /\ qlen (l_out l) (l_b l) /\
  length (l_up l) = l_out l /\ length (l_right l) = l_out l.
(** every layer's input size is the output size of the layer below; n is the size of the network input, m of its output *)
Fixpoint stack_ok (n : nat) (ls : list lstm) (m : nat) : Prop :=
  match ls with [] => n = m | l :: ls => layer_ok l /\ l_in l = n /\ stack_ok (l_out l) ls m end.
Definition grads_ok (l : lstm) (g : grads) : Prop :=
  qlen (l_out l * l_in l) (g_w g) /\ qlen (l_out l * l_out l) (g_u g) /\ qlen (l_out l) (g_b g).
Definition state_ok (l : lstm) (p : list R * list R) : Prop := length p.1 = l_out l /\ length p.2 = l_out l.

(** replace one gate's array *)
Definition set_gate (q : quad) (g : gate) (v : list R) : quad :=
  match g with
  | Forget => Quad v (q_i q) (q_o q) (q_c q) | Input => Quad (q_f q) v (q_o q) (q_c q)
  | Output => Quad (q_f q) (q_i q) v (q_c q) | Candidate => Quad (q_f q) (q_i q) (q_o q) v
  end.
(** the three parameter arrays of a layer *)
Inductive param := W | U | B.
Definition get_p (l : lstm) (p : param) (g : gate) : list R := at_gate (match p with W => l_w l | U => l_u l | B => l_b l end) g.
Definition set_p (l : lstm) (p : param) (g : gate) (v : list R) : lstm :=
  match p with
  | W => Lstm (l_in l) (l_out l) (set_gate (l_w l) g v) (l_u l) (l_b l) (l_up l) (l_right l)
  | U => Lstm (l_in l) (l_out l) (l_w l) (set_gate (l_u l) g v) (l_b l) (l_up l) (l_right l)
  | B => Lstm (l_in l) (l_out l) (l_w l) (l_u l) (set_gate (l_b l) g v) (l_up l) (l_right l)
  end.
Definition get_g (g : grads) (p : param) (k : gate) : list R := at_gate (match p with W => g_w g | U => g_u g | B => g_b g end) k.
