(** Model of the pooling functions of src/convolutional.c:453-594 over exact reals (C: float).
    [out_dim], [conv_ok]: see Conv_Model.v. *)
From Verif Require Import NumLib Conv_Model.
Open Scope nat_scope.

(** convolutional.c:463, 503, 517, 555, 589: input_j*(i*stride1+k1) + j*stride2 + k2 *)
Definition pool_idx (ij s1 s2 i j k1 k2 : nat) : nat := ij * (i * s1 + k1) + j * s2 + k2.

(** convolutional.c:457-473 max_pooling_feed_forward; max is reset to -999999 after every cell *)
Definition max_pooling_feed_forward (input output : list R) (ii ij pi pj s1 s2 padding : nat) : option (list R) :=
  if conv_ok ii ij pi pj s1 s2 then
  let output_i := out_dim ii pi s1 padding in let output_j := out_dim ij pj s2 padding in
  for_loop (output_i - 2 * padding) 0 (fun i => for_loop (output_j - 2 * padding) 0 (fun j out =>
    max ← for_loop pi 0 (fun k1 => for_loop pj 0 (fun k2 max =>
      x ← rd input (pool_idx ij s1 s2 i j k1 k2); Some (if decide (x > max)%R then x else max))) (-999999)%R;
    wr out ((padding + i) * output_j + padding + j) max)) output
  else None.

(** convolutional.c:500-511: (max, index1, index2) *)
Definition pool_scan (input : list R) (ij pi pj s1 s2 i j : nat) (st : R * nat * nat) : option (R * nat * nat) :=
  for_loop pi 0 (fun k1 => for_loop pj 0 (fun k2 (st : R * nat * nat) =>
    x ← rd input (pool_idx ij s1 s2 i j k1 k2); Some (if decide (x > st.1.1)%R then (x, k1, k2) else st))) st.
(** convolutional.c:492-528 max_pooling_back_prop; index1 and index2 keep their value between cells, max is
    reset to -9999999 (sic) *)
Definition max_pooling_back_prop (input oe : list R) (ii ij pi pj s1 s2 padding : nat) (ie : list R) : option (list R) :=
  if conv_ok ii ij pi pj s1 s2 then
  let output_i := out_dim ii pi s1 padding in let output_j := out_dim ij pj s2 padding in
  r ← for_loop (output_i - 2 * padding) 0 (fun i => for_loop (output_j - 2 * padding) 0 (fun j (s : list R * (R * nat * nat)) =>
    st ← pool_scan input ij pi pj s1 s2 i j s.2;
    ie ← for_loop pi 0 (fun k1 => for_loop pj 0 (fun k2 ie =>
      if decide (st.1.2 = k1 /\ st.2 = k2) then e ← rd oe ((padding + i) * output_j + padding + j); wr ie (pool_idx ij s1 s2 i j k1 k2) e
      else wr ie (pool_idx ij s1 s2 i j k1 k2) 0%R)) s.1;
    Some (ie, ((-9999999)%R, st.1.2, st.2)))) (ie, ((-999999)%R, 0, 0));
  Some r.1
  else None.

(** convolutional.c:545-562 average_pooling_feed_forward *)
Definition average_pooling_feed_forward (input output : list R) (ii ij pi pj s1 s2 padding : nat) : option (list R) :=
  if conv_ok ii ij pi pj s1 s2 then
  let output_i := out_dim ii pi s1 padding in let output_j := out_dim ij pj s2 padding in
  for_loop (output_i - 2 * padding) 0 (fun i => for_loop (output_j - 2 * padding) 0 (fun j out =>
    sum ← for_loop pi 0 (fun k1 => for_loop pj 0 (fun k2 sum =>
      x ← rd input (pool_idx ij s1 s2 i j k1 k2); Some (sum + x)%R)) 0%R;
    wr out ((padding + i) * output_j + padding + j) (sum / INR (pi * pj))%R)) output
  else None.
(** convolutional.c:580-594 average_pooling_back_prop *)
Definition average_pooling_back_prop (ie oe : list R) (ii ij pi pj s1 s2 padding : nat) : option (list R) :=
  if conv_ok ii ij pi pj s1 s2 then
  let output_i := out_dim ii pi s1 padding in let output_j := out_dim ij pj s2 padding in
  for_loop (output_i - 2 * padding) 0 (fun i => for_loop (output_j - 2 * padding) 0 (fun j =>
    for_loop pi 0 (fun k1 => for_loop pj 0 (fun k2 ie =>
      e ← rd oe ((padding + i) * output_j + padding + j); wr ie (pool_idx ij s1 s2 i j k1 k2) (1 / INR (pi * pj) * e)%R)))) ie
  else None.
