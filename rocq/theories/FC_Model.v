(** Model of src/fully_connected.c and of mat_mul / the elementwise vector functions of
    src/math_functions.c, over exact reals (C: float).  NULL pointers are [None] options. *)
From Verif Require Import NumLib Act_Model Loss_Model.
Open Scope nat_scope.

(** fully_connected.c:46-48, 57-59: the inner loop for output j *)
Definition fc_row (input weight : list R) (input_size j : nat) (output : list R) : option (list R) :=
  for_loop input_size 0 (fun i out => x ← rd input i; w ← rd weight (j * input_size + i); addat out j (x * w)%R) output.
(** fully_connected.c:42-62 fully_connected_feed_forward *)
Definition fc_feed_forward (input output weight : list R) (bias : option (list R)) (input_size output_size : nat) : option (list R) :=
  match bias with
  | Some bias => for_loop output_size 0 (fun j out => out ← fc_row input weight input_size j out; b ← rd bias j; addat out j b) output
  | None => for_loop output_size 0 (fun j out => fc_row input weight input_size j out) output
  end.

(** weight_error, input_error and bias_error (NULL: None) *)
Definition errs : Type := (list R * list R) * option (list R).
(** fully_connected.c:196-200, 217-220: the loop over i, with weight errors *)
Definition bp_row (input oe weight : list R) (input_size j : nat) (p : list R * list R) : option (list R * list R) :=
  for_loop input_size 0 (fun i p =>
    e ← rd oe j; x ← rd input i; we ← addat p.1 (j * input_size + i) (e * x)%R;
    w ← rd weight (j * input_size + i); ie ← addat p.2 i (e * w)%R; Some (we, ie)) p.
(** fully_connected.c:208-210: only the input errors *)
Definition bp_row_frozen (oe weight : list R) (input_size j : nat) (ie : list R) : option (list R) :=
  for_loop input_size 0 (fun i ie => e ← rd oe j; w ← rd weight (j * input_size + i); addat ie i (e * w)%R) ie.
(** fully_connected.c:192-225 fully_connected_back_prop; frozen = (training_flag == FREEZE_TRAINING) *)
Definition fc_back_prop (input oe weight : list R) (st : errs) (input_size output_size : nat) (frozen : bool) : option errs :=
  match st.2 with
  | Some be =>
      p ← for_loop output_size 0 (fun j (s : (list R * list R) * list R) =>
        p ← bp_row input oe weight input_size j s.1; e ← rd oe j; be ← addat s.2 j e; Some (p, be)) (st.1, be);
      Some (p.1, Some p.2)
  | None =>
      if frozen then ie ← for_loop output_size 0 (bp_row_frozen oe weight input_size) st.1.2; Some (st.1.1, ie, None)
      else p ← for_loop output_size 0 (bp_row input oe weight input_size) st.1; Some (p, None)
  end.

(** fully_connected.c:123-136 fully_connected_feed_forward_edge_popup (the bias part is commented out in C).
    [None] if output_size*input_size - last_n is negative (the loop would read indices[-1]...). *)
Definition fc_edge_popup (input output weight : list R) (input_size output_size : nat) (indices : list nat) (last_n : nat) : option (list R) :=
  if decide (output_size * input_size < last_n) then None else
  for_loop last_n (output_size * input_size - last_n) (fun j out =>
    k ← rd indices j; x ← rd input (k mod input_size); w ← rd weight k; addat out (k / input_size) (x * w)%R) output.
(** fully_connected.c:316-318: the input errors of the selected edges (= 365-367) *)
Definition ep_input_error (oe weight ie : list R) (input_size output_size : nat) (indices : list nat) (last_n : nat) : option (list R) :=
  if decide (output_size * input_size < last_n) then None else
  for_loop last_n (output_size * input_size - last_n) (fun j ie =>
    k ← rd indices j; e ← rd oe (k / input_size); w ← rd weight k; addat ie (k mod input_size) (e * w)%R) ie.
(** fully_connected.c:308-319 fully_connected_back_prop_edge_popup: (input_error, score_error) *)
Definition fc_bp_edge_popup (input oe weight ie score : list R) (input_size output_size : nat) (indices : list nat) (last_n : nat) : option (list R * list R) :=
  score ← for_loop output_size 0 (fun j s => for_loop input_size 0 (fun i s =>
    e ← rd oe j; x ← rd input i; w ← rd weight (j * input_size + i); addat s (j * input_size + i) (e * x * w)%R) s) score;
  ie ← ep_input_error oe weight ie input_size output_size indices last_n;
  Some (ie, score).
(** fully_connected.c:345-368 fully_connected_back_prop_edge_popup_ff_gd_bp: (input_error, weight_error) *)
Definition fc_bp_edge_popup_gd (input oe weight ie we : list R) (input_size output_size : nat) (indices : list nat) (last_n : nat) : option (list R * list R) :=
  if decide (output_size * input_size < last_n) then None else
  we ← for_loop last_n (output_size * input_size - last_n) (fun j we =>
    k ← rd indices j; e ← rd oe (k / input_size); x ← rd input (k mod input_size); addat we k (e * x)%R) we;
  ie ← ep_input_error oe weight ie input_size output_size indices last_n;
  Some (ie, we).

(** math_functions.c:174-183 mat_mul *)
Definition mat_mul (mat1 mat2 mat3 : list R) (size1 size2 size3 : nat) : option (list R) :=
  for_loop size1 0 (fun i m3 => for_loop size2 0 (fun j m3 => for_loop size3 0 (fun k m3 =>
    a ← rd mat1 (i * size2 + j); b ← rd mat2 (j * size3 + k); addat m3 (i * size3 + k) (a * b)%R) m3) m3) mat3.

(** fully_connected.c:85-109 noisy_fully_connected_feed_forward: new_weights = noisy_weights*noise + weight
    (same for the biases), then the dense forward pass with them *)
Definition noisy_params (noise noisy weight : list R) (size : nat) (new : list R) : option (list R) :=
  for_loop size 0 (fun i new => a ← rd noisy i; n ← rd noise i; w ← rd weight i; wr new i (a * n + w)%R) new.
Definition noisy_fc_feed_forward (noise_biases noisy_biases noise noisy_weights input output weight : list R) (bias : option (list R))
    (new_weights new_biases : list R) (input_size output_size : nat) : option (list R) :=
  nw ← noisy_params noise noisy_weights weight (output_size * input_size) new_weights;
  nb ← match bias with Some b => nb ← noisy_params noise_biases noisy_biases b output_size new_biases; Some (Some nb) | None => Some None end;
  fc_feed_forward input output nw nb input_size output_size.
(** fully_connected.c:247-289 noisy_fully_connected_back_prop: the statements on weight_error and
    noisy_weights_error (the same in both training branches); note that the second uses the accumulated
    weight_error, not the new increment.  The other arrays do not interact with these two. *)
Definition noisy_bp_weights (input oe noise : list R) (st : list R * list R) (input_size output_size : nat) : option (list R * list R) :=
  for_loop output_size 0 (fun j st => for_loop input_size 0 (fun i (p : list R * list R) =>
    e ← rd oe j; x ← rd input i; we ← addat p.1 (j * input_size + i) (e * x)%R;
    v ← rd we (j * input_size + i); n ← rd noise (j * input_size + i); nwe ← addat p.2 (j * input_size + i) (v * n)%R;
    Some (we, nwe)) st) st.
(** fully_connected.c:247-289: input_error; with biases it uses new_weights, without it uses weight *)
Definition noisy_bp_input (oe new_weights weight ie : list R) (has_bias : bool) (input_size output_size : nat) : option (list R) :=
  for_loop output_size 0 (bp_row_frozen oe (if has_bias then new_weights else weight) input_size) ie.

(** dot1D, div1D, sum1D, sub1D (math_functions.c:817-875) are [map2_array] with these operations; [None]:
    division by zero.  mul_value, add_value (math_functions.c:889-903) are [map_array]. *)
Definition dot1D := map2_array (fun a b => Some (a * b)%R).
Definition sum1D := map2_array (fun a b => Some (a + b)%R).
Definition sub1D := map2_array (fun a b => Some (a - b)%R).
Definition div1D := map2_array (fun a b => if decide (b = 0%R) then None else Some (a / b)%R).
Definition mul_value (input : list R) (value : R) := map_array (fun x => x * value)%R input.
Definition add_value (input : list R) (value : R) := map_array (fun x => x + value)%R input.
(** the same loop when the output array is the first input array itself, as most callers do *)
Definition map2_inplace (f : R -> R -> option R) (a b : list R) (size : nat) : option (list R) :=
  for_loop size 0 (fun i a => x ← rd a i; y ← rd b i; v ← f x y; wr a i v) a.
