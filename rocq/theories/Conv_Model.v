(** Model of the convolutions of src/convolutional.c over exact reals (C: float).  Dimensions are nat.
    A kernel larger than the input or a zero stride (C: negative loop bounds / division by zero) is [None]. *)
From Verif Require Import NumLib.
Open Scope nat_scope.

(** convolutional.c:49-50 and the same lines of the other functions *)
Definition out_dim (input kernel stride padding : nat) : nat := (input - kernel) / stride + 1 + 2 * padding.
Definition conv_ok (ii ij ki kj s1 s2 : nat) : bool := bool_decide (ki <= ii /\ kj <= ij /\ s1 <> 0 /\ s2 <> 0).

(** convolutional.c:47-63 convolutional_feed_forward *)
Definition convolutional_feed_forward (input kernel : list R) (ii ij ki kj : nat) (bias : R) (channels : nat) (output : list R) (s1 s2 padding : nat) : option (list R) :=
  if conv_ok ii ij ki kj s1 s2 then
  let output_i := out_dim ii ki s1 padding in let output_j := out_dim ij kj s2 padding in
  for_loop (output_i - padding - padding) padding (fun oi => for_loop (output_j - padding - padding) padding (fun oj out =>
    out ← for_loop channels 0 (fun c => for_loop ki 0 (fun i => for_loop kj 0 (fun j out =>
      k ← rd kernel (c * ki * kj + i * kj + j);
      x ← rd input (c * ii * ij + i * ij + j + (oj - padding) * s2 + (oi - padding) * s1 * ij);
      addat out (oi * output_j + oj) (k * x)%R))) out;
    addat out (oi * output_j + oj) bias)) output
  else None.

(** convolutional.c:194-201, 212-219: the channel/row/column loops for one output cell, on (kernel_error, input_error) *)
Definition conv_bp_cell (input kernel oe : list R) (ii ij ki kj channels output_j s1 s2 padding oi oj : nat) (p : list R * list R) : option (list R * list R) :=
  for_loop channels 0 (fun c => for_loop ki 0 (fun i => for_loop kj 0 (fun j p =>
    e ← rd oe (oi * output_j + oj);
    x ← rd input (c * ii * ij + i * ij + j + (oj - padding) * s2 + (oi - padding) * s1 * ij);
    ke ← addat p.1 (c * ki * kj + i * kj + j) (e * x)%R;
    k ← rd kernel (c * ki * kj + i * kj + j);
    ie ← addat p.2 (c * ii * ij + i * ij + j + (oj - padding) * s2 + (oi - padding) * s1 * ij) (k * e)%R;
    Some (ke, ie)))) p.
(** convolutional.c:186-221 convolutional_back_prop; bias_error is a pointer to one float or NULL *)
Definition convolutional_back_prop (input kernel : list R) (ii ij ki kj channels : nat) (oe : list R) (st : (list R * list R) * option R) (s1 s2 padding : nat) : option ((list R * list R) * option R) :=
  if conv_ok ii ij ki kj s1 s2 then
  let output_i := out_dim ii ki s1 padding in let output_j := out_dim ij kj s2 padding in
  match st.2 with
  | Some be =>
      p ← for_loop (output_i - padding - padding) padding (fun oi => for_loop (output_j - padding - padding) padding (fun oj (s : (list R * list R) * R) =>
        p ← conv_bp_cell input kernel oe ii ij ki kj channels output_j s1 s2 padding oi oj s.1;
        e ← rd oe (oi * output_j + oj);
        Some (p, (s.2 + e)%R))) (st.1, be);
      Some (p.1, Some p.2)
  | None =>
      p ← for_loop (output_i - padding - padding) padding (fun oi => for_loop (output_j - padding - padding) padding (fun oj p =>
        conv_bp_cell input kernel oe ii ij ki kj channels output_j s1 s2 padding oi oj p)) st.1;
      Some (p, None)
  end
  else None.

(** convolutional.c:617-658 transposed_convolutional_feed_forward: the scatter loops *)
Definition tconv_scatter (input kernel : list R) (ii ij ki kj channels output_j s1 s2 : nat) (output : list R) : option (list R) :=
  for_loop ii 0 (fun oi => for_loop ij 0 (fun oj => for_loop channels 0 (fun c => for_loop ki 0 (fun i => for_loop kj 0 (fun j out =>
    x ← rd input (c * ii * ij + oi * ij + oj); k ← rd kernel (c * ki * kj + i * kj + j);
    addat out (i * output_j + j + oj * s2 + oi * s1 * output_j) (x * k)%R))))) output.
(** convolutional.c:619-620; input dimensions 0 give negative sizes in C: [None] *)
Definition tout_dim (input kernel stride : nat) : nat := (input - 1) * stride + kernel.
Definition transposed_convolutional_feed_forward (input kernel : list R) (ii ij ki kj : nat) (bias : R) (channels : nat) (output : list R) (s1 s2 padding : nat) : option (list R) :=
  if bool_decide (ii <> 0 /\ ij <> 0) then
  let output_i := tout_dim ii ki s1 in let output_j := tout_dim ij kj s2 in
  if decide (padding = 0) then
    out ← tconv_scatter input kernel ii ij ki kj channels output_j s1 s2 output;
    for_loop (output_i * output_j) 0 (fun oi out => addat out oi bias) out
  else
    temp ← tconv_scatter input kernel ii ij ki kj channels output_j s1 s2 (replicate (output_i * output_j) 0%R);
    for_loop (output_i - padding - padding) padding (fun oi => for_loop (output_j - padding - padding) padding (fun oj out =>
      t ← rd temp (oi * output_j + oj); wr out ((oi - padding) * (output_j - 2 * padding) + oj - padding) (t + bias)%R)) output
  else None.

(** convolutional.c:819-830, 844-855: the gather loops, on (input_error, kernel_error) *)
Definition tconv_bp_loops (input kernel err : list R) (ii ij ki kj channels output_j s1 s2 : nat) (p : list R * list R) : option (list R * list R) :=
  for_loop ii 0 (fun oi => for_loop ij 0 (fun oj => for_loop channels 0 (fun c => for_loop ki 0 (fun i => for_loop kj 0 (fun j p =>
    k ← rd kernel (c * ki * kj + i * kj + j); e ← rd err (i * output_j + j + oj * s2 + oi * s1 * output_j);
    ie ← addat p.1 (c * ii * ij + oi * ij + oj) (k * e)%R;
    x ← rd input (c * ii * ij + oi * ij + oj);
    ke ← addat p.2 (c * ki * kj + i * kj + j) (x * e)%R;
    Some (ie, ke)))))) p.
(** convolutional.c:839-843: the error scattered into a padded temporary *)
Definition unpad (oe : list R) (output_i output_j padding : nat) : option (list R) :=
  for_loop (output_i - padding - padding) padding (fun oi => for_loop (output_j - padding - padding) padding (fun oj temp =>
    e ← rd oe ((oi - padding) * (output_j - 2 * padding) + oj - padding); wr temp (oi * output_j + oj) e)) (replicate (output_i * output_j) 0%R).
(** convolutional.c:814-865 transposed_convolutional_back_prop; result ((input_error, kernel_error), bias_error) *)
Definition transposed_convolutional_back_prop (input kernel : list R) (ii ij ki kj channels : nat) (oe : list R) (st : (list R * list R) * option R) (s1 s2 padding : nat) : option ((list R * list R) * option R) :=
  if bool_decide (ii <> 0 /\ ij <> 0) then
  let output_i := tout_dim ii ki s1 in let output_j := tout_dim ij kj s2 in
  err ← (if decide (padding = 0) then Some oe else unpad oe output_i output_j padding);
  p ← tconv_bp_loops input kernel err ii ij ki kj channels output_j s1 s2 st.1;
  be ← match st.2 with Some be => be ← sum_loop (output_i * output_j) (fun oi => rd err oi) be; Some (Some be) | None => Some None end;
  Some (p, be)
  else None.
