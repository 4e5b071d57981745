(** Specification of the vector layer: which function of one stored value p and one input value z each
    configuration computes, where it is defined and where it is differentiable. *)
From Verif Require Import NumLib Act_Props Vec_Model.
Open Scope R_scope.

(** elementwise ac af g def smooth: with action code ac and activation code af, output = g p z *)
Inductive elementwise : nat -> nat -> (R -> R -> R) -> (R -> R -> Prop) -> (R -> Prop) -> Prop :=
| ew_add af : elementwise ADDITION af (fun p z => z + p) (fun _ _ => True) (fun _ => True)
| ew_sub af : elementwise SUBTRACTION af (fun p z => z - p) (fun _ _ => True) (fun _ => True)
| ew_mul af : elementwise MULTIPLICATION af (fun p z => z * p) (fun _ _ => True) (fun _ => True)
| ew_div af : elementwise DIVISION af (fun p z => z / p) (fun p _ => p <> 0) (fun _ => True)
| ew_inv af : elementwise INVERSE af (fun _ z => / z) (fun _ z => z <> 0) (fun _ => True)
| ew_neg af : elementwise CHANGE_SIGN af (fun _ z => - z) (fun _ _ => True) (fun _ => True)
| ew_sigmoid : elementwise NO_ACTION SIGMOID (fun _ z => logistic z) (fun _ _ => True) (fun _ => True)
| ew_tanh : elementwise NO_ACTION TANH (fun _ z => tanh z) (fun _ _ => True) (fun _ => True)
| ew_relu : elementwise NO_ACTION RELU (fun _ z => Rmax z 0) (fun _ _ => True) (fun z => z <> 0)
| ew_leaky : elementwise NO_ACTION LEAKY_RELU (fun _ z => Rmax z (z / 10)) (fun _ _ => True) (fun z => z <> 0)
| ew_elu : elementwise NO_ACTION ELU (fun _ z => if decide (z > 0) then z else exp z - 1) (fun _ _ => True) (fun z => z <> 0).

(** same with two inputs *)
Inductive elementwise2 : nat -> (R -> R -> R) -> (R -> R -> Prop) -> Prop :=
| ew2_add : elementwise2 ADDITION Rplus (fun _ _ => True)
| ew2_sub : elementwise2 SUBTRACTION Rminus (fun _ _ => True)
| ew2_mul : elementwise2 MULTIPLICATION Rmult (fun _ _ => True)
| ew2_div : elementwise2 DIVISION Rdiv (fun _ b => b <> 0).

(** a vector layer whose arrays have their declared sizes; the stored vector is needed by the first four actions *)
Definition stored (x : vec) : list R := match vv x with Some v => v | None => [] end.
Definition binary (ac : nat) : Prop := ac = ADDITION \/ ac = SUBTRACTION \/ ac = MULTIPLICATION \/ ac = DIVISION.
Definition shaped (x : vec) : Prop :=
  length (output x) = output_size x /\ length (input_error x) = input_size x /\
  (action x <> NO_ACTION -> v_size x = output_size x) /\
  (binary (action x) -> exists v, vv x = Some v /\ length v = v_size x).

(** the output array after a forward pass on input y *)
Definition forward (draw : nat -> R) (x : vec) (y : list R) : list R :=
  match ff_vector1 draw y x with Some x' => output x' | None => [] end.
Definition forward2 (x : vec) (y z : list R) : list R := match ff_vector2 y z x with Some x' => output x' | None => [] end.
