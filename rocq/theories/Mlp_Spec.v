(** Specification of a feed-forward network of dense layers: y = keep * activation (W x + b), layer after layer. *)
From Verif Require Import NumLib Act_Props Softmax_Props FC_Spec Vec_Model Mlp_Model.
Open Scope R_scope.

(** a layer: sizes, parameters, activation code, and the factor each output is multiplied with (1: no dropout) *)
Record dl := Dl { d_in : nat; d_out : nat; d_W : list R; d_b : list R; d_act : nat; d_keep : nat -> R }.
Definition with_W (l : dl) (W : list R) : dl := Dl (d_in l) (d_out l) W (d_b l) (d_act l) (d_keep l).
Definition with_b (l : dl) (b : list R) : dl := Dl (d_in l) (d_out l) (d_W l) b (d_act l) (d_keep l).

(** the activation functions on one value *)
Definition activation (a : nat) (z : R) : R :=
  if decide (a = SIGMOID) then logistic z
  else if decide (a = TANH) then tanh z
  else if decide (a = RELU) then Rmax z 0
  else if decide (a = LEAKY_RELU) then Rmax z (z / 10)
  else if decide (a = ELU) then (if decide (z > 0) then z else exp z - 1)
  else z.
(** on an array of n values; softmax looks at all of them *)
Definition activations (a n : nat) (z : list R) (i : nat) : R :=
  if decide (a = SOFTMAX) then softmax_of everything n z i else activation a (el z i).
Definition affine (l : dl) (x : list R) : list R := dense (d_in l) (d_out l) (d_W l) (d_b l) x.
Definition apply_layer (l : dl) (x : list R) : list R :=
  map (fun i => d_keep l i * activations (d_act l) (d_out l) (affine l x) i) (seq 0 (d_out l)).
(** the whole network *)
Fixpoint net (ls : list dl) (x : list R) : list R := match ls with [] => x | l :: ls => net ls (apply_layer l x) end.

(** no activation with a kink is evaluated exactly on its kink *)
Definition kinked (a : nat) : Prop := a = RELU \/ a = LEAKY_RELU \/ a = ELU.
Fixpoint off_kinks (ls : list dl) (x : list R) : Prop :=
  match ls with
  | [] => True
  | l :: ls => (kinked (d_act l) -> forall i, (i < d_out l)%nat -> el (affine l x) i <> 0) /\ off_kinks ls (apply_layer l x)
  end.

(** The C layer as a layer of the specification: the factors are 0 for the units whose draw is below the dropout
    threshold and 1 for the others while training, the stored threshold in test mode, 1 without dropout. *)
Definition keep_of (draw : nat -> R) (f : fcl) (i : nat) : R :=
  if decide (dflag f = DROPOUT) then (if decide (draw i < thr f) then 0 else 1)
  else if decide (dflag f = DROPOUT_TEST) then thr f else 1.
Definition layer_of (draw : nat -> R) (f : fcl) : dl := Dl (fi f) (fo f) (weights f) (biases f) (act f) (keep_of draw f).
Fixpoint layers_of (draw : nat -> nat -> R) (k : nat) (fs : list fcl) : list dl :=
  match fs with [] => [] | f :: fs => layer_of (draw k) f :: layers_of draw (S k) fs end.

(** a layer with arrays of the declared sizes, without normalization *)
Definition shaped (f : fcl) : Prop :=
  length (weights f) = (fo f * fi f)%nat /\ length (biases f) = fo f /\ length (dw f) = (fo f * fi f)%nat /\ length (db f) = fo f /\
  length (pre f) = fo f /\ (act f <> NO_ACTIVATION -> length (post f) = fo f) /\
  (dflag f <> NO_DROPOUT -> length (mask f) = fo f /\ length (dtemp f) = fo f) /\
  length (temp f) = fo f /\ length (temp3 f) = fo f /\ length (err2 f) = fi f /\
  length (activ f) = fo f /\ (forall i, activ f !! i <> Some 0%Z) /\
  (act f <= 6)%nat /\ (dflag f <= 2)%nat /\ nrm f = NO_NORMALIZATION /\
  (mode f = GRADIENT_DESCENT \/ mode f = FREEZE_TRAINING \/ mode f = FREEZE_BIASES).
(** ... just after reset_fcl *)
Definition ready (f : fcl) : Prop :=
  shaped f /\ pre f = replicate (fo f) 0 /\ temp f = replicate (fo f) 0 /\ temp3 f = replicate (fo f) 0 /\ err2 f = replicate (fi f) 0 /\
  (dflag f <> NO_DROPOUT -> mask f = replicate (fo f) 1).
(** the output of each layer has the size of the input of the next, and softmax appears only on the last *)
Fixpoint chained (n : nat) (fs : list fcl) : Prop :=
  match fs with [] => True | f :: fs => fi f = n /\ (act f = SOFTMAX -> fs = []) /\ chained (fo f) fs end.

(** The losses: one component, its weight, the sum over the outputs.  Where the formula has a logarithm, [loss_ok]
    asks for arguments inside its domain; the modified Huber loss has a kink. *)
Definition loss_term (s : loss) (y t : R) : R :=
  if decide (flag s = NO_LOSS) then t * y
  else if decide (flag s = MSE_LOSS) then (y - t) * (y - t) / 2
  else if decide (flag s = CROSS_ENTROPY_LOSS) then - (t * ln y + (1 - t) * ln (1 - y))
  else if decide (flag s = FOCAL_LOSS) then let p := if decide (t = 1) then y else 1 - y in - Rpower (1 - p) (gam s) * ln p
  else if decide (flag s = HUBER2_LOSS) then
    (if decide (t * y >= -1) then Rmax 0 (th1 s - t * y) * Rmax 0 (th1 s - t * y) else - th2 s * (t * y))
  else if decide (flag s = KL_DIVERGENCE_LOSS) then y * ln (y / t)
  else - (y * ln y).
Definition loss_ok (s : loss) (y t : R) : Prop :=
  flag s = NO_LOSS \/ flag s = MSE_LOSS \/ ((flag s = CROSS_ENTROPY_LOSS \/ flag s = FOCAL_LOSS) /\ 0 < y < 1) \/
  (flag s = HUBER2_LOSS /\ t * y <> -1) \/ (flag s = KL_DIVERGENCE_LOSS /\ 0 < y /\ 0 < t) \/ (flag s = ENTROPY_LOSS /\ 0 < y).
Definition loss_weight (s : loss) (t : R) (i : nat) : R :=
  match alpha s with None => 1 | Some al => if decide (t = 0) then 1 else el al i end.
Definition total_loss (s : loss) (target : list R) (n : nat) (y : list R) : R :=
  sumn n (fun i => loss_weight s (el target i) i * loss_term s (el y i) (el target i)).
