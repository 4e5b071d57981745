(** Model of the LSTM code: src/recurrent.c:45-93 lstm_ff, src/recurrent.c:183-560 lstm_bp, and the window
    loops of src/rmodel.c:553-660 ff_rmodel_lstm and 803-1047 bp_rmodel_lstm, over exact reals (C: float).
    A float** with the four rows f, i, o, c (indices 0..3) is a [quad].  Arrays that C mallocs and fills
    completely before reading are started from zeros. *)
From Verif Require Import NumLib Act_Model.
Open Scope nat_scope.

(** the four arrays of a gate-indexed float**; row 0 = forget, 1 = input, 2 = output, 3 = candidate *)
Record quad := Quad { q_f : list R; q_i : list R; q_o : list R; q_c : list R }.
Definition zeros (n : nat) : list R := replicate n 0%R.
Definition qzeros (n : nat) : quad := Quad (zeros n) (zeros n) (zeros n) (zeros n).

(** recurrent.c:56-59, 62-65: z[g][i] += w[g][k]*x for the four gates *)
Definition z_mac (w : quad) (k : nat) (x : R) (i : nat) (z : quad) : option quad :=
  a ← rd (q_f w) k; f ← addat (q_f z) i (a * x)%R;
  a ← rd (q_i w) k; g ← addat (q_i z) i (a * x)%R;
  a ← rd (q_o w) k; o ← addat (q_o z) i (a * x)%R;
  a ← rd (q_c w) k; c ← addat (q_c z) i (a * x)%R;
  Some (Quad f g o c).

(** recurrent.c:45-93 lstm_ff; returns z, cell_state and hidden_state *)
Definition lstm_ff (x h c cell hidden : list R) (w u b z : quad) (input_size output_size : nat) : option (quad * list R * list R) :=
  for_loop output_size 0 (fun i (st : quad * list R * list R) =>
    z ← for_loop input_size 0 (fun j z => xj ← rd x j; z_mac w (i * input_size + j) xj i z) st.1.1;
    z ← for_loop output_size 0 (fun j z => hj ← rd h j; z_mac u (i * output_size + j) hj i z) z;
    z ← z_mac b i 1%R i z;
    zf ← rd (q_f z) i; zi ← rd (q_i z) i; zo ← rd (q_o z) i; zc ← rd (q_c z) i; ci ← rd c i;
    let cs := (tanhh zc * sigmoid zi + ci * sigmoid zf)%R in
    cell ← wr st.1.2 i cs;
    hid ← wr st.2 i (sigmoid zo * tanhh cs)%R;
    Some (z, cell, hid)) (z, cell, hidden).

(** recurrent.c:359-362 (= 422-425 and 494-497 up to the mask factor [mk]):
    dy[j] += df[i]*sigma'(z_f[i])*w_f[k]*mk, ... for the four gates, in the order f, i, o, c *)
Definition dy_mac (d z w : quad) (i k j : nat) (mk : R) (dy : list R) : option (list R) :=
  df ← rd (q_f d) i; zf ← rd (q_f z) i; a ← rd (q_f w) k; dy ← addat dy j (df * derivative_sigmoid zf * a * mk)%R;
  di ← rd (q_i d) i; zi ← rd (q_i z) i; a ← rd (q_i w) k; dy ← addat dy j (di * derivative_sigmoid zi * a * mk)%R;
  do_ ← rd (q_o d) i; zo ← rd (q_o z) i; a ← rd (q_o w) k; dy ← addat dy j (do_ * derivative_sigmoid zo * a * mk)%R;
  dc ← rd (q_c d) i; zc ← rd (q_c z) i; a ← rd (q_c w) k; addat dy j (dc * sigmoid zi * derivative_tanhh zc * a * mk)%R.

(** recurrent.c:419-427, 482-492: the error coming from the next time step *)
Definition dy_plus (d z u : quad) (output_size : nat) (mask_plus : list R) (dy : list R) : option (list R) :=
  for_loop output_size 0 (fun i => for_loop output_size 0 (fun j dy => mk ← rd mask_plus j; dy_mac d z u i (i * output_size + j) j mk dy)) dy.
(** recurrent.c:355-365 (no mask factor) and 493-504 (mask factor): the error coming from the layer above *)
Definition dy_up (d z w : quad) (output_size_up output_size : nat) (mask : option (list R)) (dy : list R) : option (list R) :=
  for_loop output_size_up 0 (fun i => for_loop output_size 0 (fun j dy =>
    mk ← match mask with Some m => rd m j | None => Some 1%R end; dy_mac d z w i (i * output_size + j) j mk dy)) dy.

(** recurrent.c:321-330: dw[g][i*n+j] += delta_g*x[j] in the order o, c, i, f *)
Definition d_mac (k : nat) (gf gi go gc x : R) (dw : quad) : option quad :=
  o ← addat (q_o dw) k (go * x)%R; c ← addat (q_c dw) k (gc * x)%R;
  g ← addat (q_i dw) k (gi * x)%R; f ← addat (q_f dw) k (gf * x)%R; Some (Quad f g o c).

(** the errors of w, u and the biases *)
Record grads := Grads { g_w : quad; g_u : quad; g_b : quad }.
Record bp_state := BpState { s_grads : grads; s_d : quad; s_dy : list R }.

(** recurrent.c:305-348, 367-412, 429-468, 506-552: the loop over the cells, the same in the four cases except
    that flag 1 multiplies dy[i] by dropout_mask[i] first ([mask]) and flags 2 and 3 add
    dc_plus[i]*sigmoid(z_f_plus[i]) to dc_t[i] ([plus]) *)
Definition bp_cell (x_t c_t h_minus c_minus : list R) (z : quad) (mask : option (list R)) (plus : option (quad * quad))
    (input_size output_size : nat) (i : nat) (st : bp_state) : option bp_state :=
  dy ← match mask with Some m => e ← rd (s_dy st) i; mk ← rd m i; wr (s_dy st) i (e * mk)%R | None => Some (s_dy st) end;
  e ← rd dy i; ct ← rd c_t i; zf ← rd (q_f z) i; zi ← rd (q_i z) i; zo ← rd (q_o z) i; zc ← rd (q_c z) i; cm ← rd c_minus i;
  next ← match plus with
         | Some (d_plus, z_plus) => dcp ← rd (q_c d_plus) i; zfp ← rd (q_f z_plus) i; Some (dcp * sigmoid zfp)%R
         | None => Some 0%R
         end;
  let do_t := (e * tanhh ct)%R in
  let temp := derivative_sigmoid zo in
  let dc_t := (e * sigmoid zo * derivative_tanhh ct + next)%R in
  let temp2 := derivative_tanhh zc in
  let di_t := (dc_t * tanhh zc)%R in
  let temp5 := sigmoid zi in
  let temp3 := derivative_sigmoid_given_the_sigmoid temp5 in
  let df_t := (dc_t * cm)%R in
  let temp4 := derivative_sigmoid zf in
  o ← wr (q_o (s_d st)) i do_t; c ← wr (q_c (s_d st)) i dc_t; g ← wr (q_i (s_d st)) i di_t; f ← wr (q_f (s_d st)) i df_t;
  dw ← for_loop input_size 0 (fun j dw => x ← rd x_t j; d_mac (i * input_size + j) (df_t * temp4) (di_t * temp3) (do_t * temp) (dc_t * temp5 * temp2) x dw) (g_w (s_grads st));
  du ← for_loop output_size 0 (fun j du => h ← rd h_minus j; d_mac (i * output_size + j) (df_t * temp4) (di_t * temp3) (do_t * temp) (dc_t * temp5 * temp2) h du) (g_u (s_grads st));
  db ← d_mac i (df_t * temp4) (di_t * temp3) (do_t * temp) (dc_t * temp5 * temp2) 1%R (g_b (s_grads st));
  Some (BpState (Grads dw du db) (Quad f g o c) dy).

(** recurrent.c:183-560 lstm_bp.  NULL pointers are [None]; reading through one is undefined ([None]).
    Returns the updated errors, dfioc_t and the updated dy. *)
Definition lstm_bp (flag : nat) (input_size output_size output_size_up : nat) (gr : grads) (u z : quad) (dy x_t c_t h_minus c_minus : list R)
    (z_up dfioc_up z_plus dfioc_plus w_up : option quad) (dropout_mask dropout_mask_plus : list R) : option bp_state :=
  let d0 := qzeros output_size in
  match flag with
  | 0 => for_loop output_size 0 (bp_cell x_t c_t h_minus c_minus z None None input_size output_size) (BpState gr d0 dy)
  | 1 =>
      dy ← match w_up with
           | Some w => d ← dfioc_up; zu ← z_up; dy_up d zu w output_size_up output_size None dy
           | None => Some dy
           end;
      for_loop output_size 0 (bp_cell x_t c_t h_minus c_minus z (Some dropout_mask) None input_size output_size) (BpState gr d0 dy)
  | 2 =>
      d ← dfioc_plus; zp ← z_plus;
      dy ← dy_plus d zp u output_size dropout_mask_plus dy;
      for_loop output_size 0 (bp_cell x_t c_t h_minus c_minus z None (Some (d, zp)) input_size output_size) (BpState gr d0 dy)
  | _ =>
      d ← dfioc_plus; zp ← z_plus;
      dy ← dy_plus d zp u output_size dropout_mask_plus dy;
      dy ← match w_up with
           | Some w => du ← dfioc_up; zu ← z_up; dy_up du zu w output_size_up output_size (Some dropout_mask) dy
           | None => Some dy
           end;
      for_loop output_size 0 (bp_cell x_t c_t h_minus c_minus z None (Some (d, zp)) input_size output_size) (BpState gr d0 dy)
  end.

(** llab.h lstm: the fields used here *)
Record lstm := Lstm { l_in : nat; l_out : nat; l_w : quad; l_u : quad; l_b : quad; l_up : list R; l_right : list R }.
(** what the forward pass stores for one layer at one time: lstm_z, lstm_cell, lstm_hidden, out_up *)
Record cell := Cell { c_z : quad; c_cell : list R; c_hid : list R; c_up : list R }.

(** utils.c:48-54 get_dropout_array *)
Definition get_dropout_array (size : nat) (mask input output : list R) : option (list R) :=
  for_loop size 0 (fun i out => m ← rd mask i; x ← rd input i; wr out i (m * x)%R) output.

(** rmodel.c:564-655: the body of the loops for one layer.  x is input_model[i] (layer 0) or the previous
    layer's dropout_output; h and c are hidden_states[j]/cell_states[j] (i = 0) or lstm_hidden[i-1]/lstm_cell[i-1].
    Simplifications: feed_forward_flag = FULLY_FEED_FORWARD, no residual connection, dropout flags such that the
    masks are the stored ones (set_dropout_mask has already run, no DROPOUT_TEST), lstm_z zeroed (reset_rmodel). *)
Definition ff_layer (l : lstm) (x h c : list R) : option cell :=
  h2 ← get_dropout_array (l_out l) (l_right l) h (zeros (l_out l));
  r ← lstm_ff x h2 c (zeros (l_out l)) (zeros (l_out l)) (l_w l) (l_u l) (l_b l) (qzeros (l_out l)) (l_in l) (l_out l);
  up ← get_dropout_array (l_out l) (l_up l) r.2 (zeros (l_out l));
  Some (Cell r.1.1 r.1.2 r.2 up).
(** rmodel.c:565: the loop over the layers at one time; [prev] = previous hidden and cell states, per layer *)
Fixpoint ff_time (ls : list lstm) (x : list R) (prev : list (list R * list R)) : option (list cell) :=
  match ls, prev with
  | [], _ => Some []
  | l :: ls, p :: prev => c ← ff_layer l x p.1 p.2; cs ← ff_time ls (c_up c) prev; Some (c :: cs)
  | _ :: _, [] => None
  end.
Definition states (cs : list cell) : list (list R * list R) := map (fun c => (c_hid c, c_cell c)) cs.
(** rmodel.c:564: the loop over the window *)
Fixpoint ff_rmodel_lstm (ls : list lstm) (prev : list (list R * list R)) (inputs : list (list R)) : option (list (list cell)) :=
  match inputs with
  | [] => Some []
  | x :: inputs => cs ← ff_time ls x prev; r ← ff_rmodel_lstm ls (states cs) inputs; Some (cs :: r)
  end.

(** rmodel.c:823-836 *)
Definition bp_flag (top last : bool) : nat := if top then (if last then 0 else 2) else (if last then 1 else 3).
(** rmodel.c:818-1000: one layer at one time (no residual connection, GRADIENT_DESCENT): dx is mask_up*error for
    the top layer and 0 otherwise; h_minus is mask_right*previous hidden state.  [up] is the layer above at this
    time (its dfioc, z, w and size), [plus] the same layer at the next time.  The result's dfioc is matrix[j]. *)
Definition bp_layer (l : lstm) (x : list R) (p : list R * list R) (c : cell) (err : list R) (gr : grads)
    (up : option (quad * quad * quad * nat)) (plus : option (quad * quad)) : option (quad * grads) :=
  dx ← match up with None => get_dropout_array (l_out l) (l_up l) err (zeros (l_out l)) | Some _ => Some (zeros (l_out l)) end;
  h2 ← get_dropout_array (l_out l) (l_right l) p.1 (zeros (l_out l));
  st ← lstm_bp (bp_flag (match up with None => true | _ => false end) (match plus with None => true | _ => false end))
         (l_in l) (l_out l) (match up with Some t => t.2 | None => 0 end) gr (l_u l) (c_z c) dx x (c_cell c) h2 p.2
         ((fun t : quad * quad * quad * nat => t.1.1.2) <$> up) ((fun t : quad * quad * quad * nat => t.1.1.1) <$> up)
         (snd <$> plus) (fst <$> plus) ((fun t : quad * quad * quad * nat => t.1.2) <$> up) (l_up l) (l_right l);
  Some (s_d st, s_grads st).
(** rmodel.c:819: the loop over the layers from the top; [plus] = for each layer dfioc and z of the next time (all
    [None] at the last time) *)
Fixpoint bp_time (ls : list lstm) (x : list R) (prev : list (list R * list R)) (cs : list cell) (err : list R) (grs : list grads)
    (plus : list (option (quad * quad))) : option (list quad * list grads) :=
  match ls, prev, cs, grs, plus with
  | [], _, _, _, _ => Some ([], [])
  | l :: ls, p :: prev, c :: cs, gr :: grs, pl :: plus =>
      r ← bp_time ls (c_up c) prev cs err grs plus;
      let up := match ls, cs, r.1 with l' :: _, c' :: _, d' :: _ => Some (d', c_z c', l_w l', l_out l') | _, _, _ => None end in
      r' ← bp_layer l x p c err gr up pl;
      Some (r'.1 :: r.1, r'.2 :: r.2)
  | _, _, _, _, _ => None
  end.
Fixpoint zip_plus (ds : list quad) (cs : list cell) : list (option (quad * quad)) :=
  match ds, cs with d :: ds, c :: cs => Some (d, c_z c) :: zip_plus ds cs | _, _ => [] end.
(** the loop over the window from the last time; returns matrix and the errors of every layer *)
Fixpoint bp_window (ls : list lstm) (prev : list (list R * list R)) (inputs : list (list R)) (css : list (list cell)) (errs : list (list R))
    (grs : list grads) : option (list quad * list grads) :=
  match inputs, css, errs with
  | [x], [cs], [err] => bp_time ls x prev cs err grs (map (fun _ => None) ls)
  | x :: inputs, cs :: ((cs' :: _) as css), err :: errs =>
      r ← bp_window ls (states cs) inputs css errs grs;
      bp_time ls x prev cs err r.2 (zip_plus r.1 cs')
  | _, _, _ => None
  end.
(** rmodel.c:803-1047 bp_rmodel_lstm: with a window of 1 the code reads lstm_z[1] (rmodel.c:1002...), which is
    outside of the array: undefined *)
Definition bp_rmodel_lstm (ls : list lstm) (prev : list (list R * list R)) (inputs : list (list R)) (css : list (list cell)) (errs : list (list R))
    (grs : list grads) : option (list quad * list grads) :=
  if decide (length inputs <= 1) then None else bp_window ls prev inputs css errs grs.

(** rmodel.c:1365-1500 lstm_dinput, the derivative with respect to the input of a cell, for GRADIENT_DESCENT with all
    neurons active.  In C each gate's [temp3] is overwritten (=, not +=) by every cell k, and the candidate gate uses
    the derivative of the sigmoid (rmodel.c:1390). *)
Definition dinput_gate (w t : list R) (input_size output : nat) : option (list R) :=
  for_loop output 0 (fun k t3 => for_loop input_size 0 (fun k2 t3 => a ← rd w (k * input_size + k2); tk ← rd t k; wr t3 k2 (a * tk)%R) t3) (zeros input_size).
Definition sum1D (a b : list R) : list R := zip_with Rplus a b.
Definition lstm_dinput (d z w : quad) (input_size output : nat) : option (list R) :=
  let t (f : nat -> R) := map f (seq 0 output) in
  t3 ← dinput_gate (q_c w) (t (fun k => sigmoid (el (q_i z) k) * el (q_c d) k * derivative_sigmoid_given_the_sigmoid (sigmoid (el (q_c z) k)))%R) input_size output;
  let r := sum1D (zeros input_size) t3 in
  t3 ← dinput_gate (q_o w) (t (fun k => el (q_o d) k * derivative_sigmoid (el (q_o z) k))%R) input_size output;
  let r := sum1D r t3 in
  t3 ← dinput_gate (q_i w) (t (fun k => el (q_i d) k * derivative_sigmoid (el (q_i z) k))%R) input_size output;
  let r := sum1D r t3 in
  t3 ← dinput_gate (q_f w) (t (fun k => el (q_f d) k * derivative_sigmoid (el (q_f z) k))%R) input_size output;
  Some (sum1D r t3).
